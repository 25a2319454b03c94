(** Invariants of the data directory: sessions, crashes, regress *)
From Coq Require Import List ZArith Bool Lia Sorting.Sorted Sorting.Permutation.
From Verif Require Import Base L_Base M_Iter L_Iter L_Tree L_Lookup L_Core M_MetaMgr L_MetaMgr.
Import List ListNotations.
Local Open Scope Z_scope.

Section MD.
Context {D : Type}.
Variable deq : D -> D -> bool.
Hypothesis deq_ok : forall x y, deq x y = true <-> x = y.

Notation mfile := (@mfile D).
Notation ddir := (@ddir D).
Notation listing := (list (idx * D)).
Notation lsorted := (sorted_by (@fst idx D)).
Notation chain := (chain deq).
Notation dop := (@dop D).

Lemma run_dops_app l1 l2 (d : ddir) : run_dops (l1 ++ l2) d = run_dops l2 (run_dops l1 d).
Proof. revert d. induction l1 as [|o l1 IH]; intros d; cbn; auto. Qed.

(** which operations change what *)
Definition touches_markers (o : dop) : bool :=
  match o with DTouch _ | DUnmark _ => true | _ => false end.
Definition touches_files (o : dop) : bool :=
  match o with DPut _ | DDel _ _ => true | _ => false end.
Lemma markers_same l : forall d : ddir, forallb (fun o => negb (touches_markers o)) l = true ->
  markers (run_dops l d) = markers d.
Proof.
  induction l as [|o l IH]; intros d H; cbn in *; [reflexivity|]. apply andb_true_iff in H as [H1 H2].
  rewrite IH by assumption. destruct o; try discriminate; reflexivity.
Qed.
Lemma files_same l : forall d : ddir, forallb (fun o => negb (touches_files o)) l = true ->
  mfiles (run_dops l d) = mfiles d.
Proof.
  induction l as [|o l IH]; intros d H; cbn in *; [reflexivity|]. apply andb_true_iff in H as [H1 H2].
  rewrite IH by assumption. destruct o; try discriminate; reflexivity.
Qed.

Record inv (h : list (Z * listing)) (d : ddir) (fs : list mfile) : Prop := {
  i_chain : chain fs h;
  i_asc : asc fs;
  i_perm : Permutation (mfiles d) fs;
  i_pos : forall f, In f fs -> 0 < mf_time f;
  i_mark : exists h0 t l, h = h0 ++ [(t, l)] /\ markers d = [t] }.

(** names not in the base *)
Definition free (t : Z) (k : mkind) (base : list mfile) : Prop :=
  forall f, In f base -> same_name t k f = false.

Lemma put_perm (f : mfile) base ex files : Permutation files (base ++ ex) ->
  free (mf_time f) (mf_kind f) base ->
  Permutation (put_file f files) (base ++ del_file (mf_time f) (mf_kind f) ex ++ [f]).
Proof.
  intros P F. unfold put_file. rewrite (del_perm (mf_time f) (mf_kind f) _ _ P), del_app.
  rewrite (del_absent _ _ base F). now rewrite app_assoc.
Qed.

Lemma put_series t k base rs : free t k base -> forall (d : ddir) ex r,
  Permutation (mfiles d) (base ++ ex) -> (ex = [] \/ exists r0, ex = [mk_mf t k r0]) ->
  Permutation (mfiles (run_dops (map (fun r => DPut (mk_mf t k r)) rs ++ [DPut (mk_mf t k r)]) d))
              (base ++ [mk_mf t k r]).
Proof.
  intros F. 
  assert (Hdel : forall ex, (ex = [] \/ exists r0, ex = [@mk_mf D t k r0]) -> del_file t k ex = []).
  { intros ex [->|[r0 ->]]; cbn; [reflexivity|]. now rewrite same_name_self. }
  induction rs as [|r0 rs IH]; intros d ex r P Hex; cbn.
  - pose proof (put_perm (mk_mf t k r) base ex _ P F) as P1. cbn in P1. now rewrite (Hdel ex Hex) in P1.
  - apply (IH _ [mk_mf t k r0]); [|eauto]. cbn.
    pose proof (put_perm (mk_mf t k r0) base ex _ P F) as P1. cbn in P1. now rewrite (Hdel ex Hex) in P1.
Qed.

(** ** state in the middle of a session or of a regress *)
Definition leftover (t1 t : Z) (f : mfile) : Prop :=
  mf_time f = t \/ (mf_time f = t1 /\ mf_kind f = KDiff).

Definition mid_a (fs : list mfile) (t1 t : Z) (files : list mfile) : Prop :=
  exists ex, Permutation files (fs ++ ex) /\ Forall (leftover t1 t) ex.
(** the old snapshot has been replaced by the diff *)
Definition mid_b (fs : list mfile) (h : list (Z * listing)) (t1 t : Z) (files : list mfile) : Prop :=
  exists fs0 h0 l0 l, fs = fs0 ++ [mk_mf t1 KSnap (recs_of l0)] /\ h = h0 ++ [(t1, l0)] /\ lsorted l /\
    Permutation files (fs0 ++ [mk_mf t1 KDiff (diffiter deq (recs_of l) (recs_of l0)); mk_mf t KSnap (recs_of l)]).
Definition mid fs h t1 t (d : ddir) : Prop :=
  (markers d = [t; t1] \/ markers d = [t1; t]) /\ (mid_a fs t1 t (mfiles d) \/ mid_b fs h t1 t (mfiles d)).

Lemma inv_last h d fs : inv h d fs -> exists fs0 h0 t l,
  fs = fs0 ++ [mk_mf t KSnap (recs_of l)] /\ h = h0 ++ [(t, l)] /\ markers d = [t] /\ lsorted l.
Proof.
  intros [HC S P Hp (h0 & t & l & -> & Hm)].
  destruct (@exists_last _ fs) as (fs0 & f0 & ->).
  { intros ->. apply chain_length in HC. rewrite app_length in HC. cbn in HC. lia. }
  destruct (chain_last_snap deq fs0 f0 _ HC) as (h1 & t1 & l1 & E & -> & Hl).
  apply app_inj_tail in E as [-> [= -> ->]]. exists fs0, h1, t1, l1. auto.
Qed.

Lemma in_snoc {A} (l : list A) x y : In x (l ++ [y]) <-> In x l \/ x = y.
Proof. rewrite in_app_iff. cbn. intuition congruence. Qed.

Lemma asc_snoc_inv (fs : list mfile) f : asc (fs ++ [f]) -> asc fs /\ forall g, In g fs -> mf_time g < mf_time f.
Proof.
  induction fs as [|g fs IH]; intros S; [split; [constructor|intros ? []]|].
  inversion S as [|? ? S' F]; subst. destruct (IH S') as [A B]. rewrite Forall_forall in F. split.
  - constructor; [assumption|]. apply Forall_forall. intros x Hx. apply F. apply in_snoc. auto.
  - intros x [<-|Hx]; [|auto]. apply F. apply in_snoc. auto.
Qed.

Section Session.
Variables (h : list (Z * listing)) (d : ddir) (fs0 : list mfile) (h0 : list (Z * listing))
          (t1 : Z) (l0 : listing) (t : Z) (l : listing) (z : @dnoise D).
Let fl := mk_mf t1 KSnap (recs_of l0).
Let fs := fs0 ++ [fl].
Hypothesis HI : inv h d fs.
Hypothesis Hh : h = h0 ++ [(t1, l0)].
Hypothesis Hm : markers d = [t1].
Hypothesis Ht : t1 < t.
Hypothesis Hl : lsorted l.

Lemma times_le f : In f fs -> mf_time f <= t1.
Proof using HI.
  intros H. apply in_snoc in H as [H| ->]; [|cbn; lia].
  destruct (asc_snoc_inv _ _ (i_asc _ _ _ HI)) as [_ F]. specialize (F f H). cbn in F. lia.
Qed.
Lemma free_t k : free t k fs.
Proof using HI Ht. intros f Hf. apply same_name_time. pose proof (times_le f Hf). lia. Qed.
Lemma free_t1_diff : free t1 KDiff fs.
Proof using HI.
  intros f Hf. apply in_snoc in Hf as [H| ->]; [|apply same_name_kind; discriminate].
  apply same_name_time. destruct (asc_snoc_inv _ _ (i_asc _ _ _ HI)) as [_ F]. specialize (F f H). cbn in F. lia.
Qed.

Lemma put_mid f files : leftover t1 t f -> mid_a fs t1 t files -> mid_a fs t1 t (put_file f files).
Proof using HI Ht.
  intros Hf (ex & P & F).
  assert (Hfree : free (mf_time f) (mf_kind f) fs).
  { destruct Hf as [E|[E1 E2]]; [rewrite E; apply free_t|rewrite E1, E2; apply free_t1_diff]. }
  eexists. split; [apply (put_perm f fs ex files P Hfree)|].
  apply Forall_app. split; [|constructor; [assumption|constructor]].
  apply Forall_forall. intros x Hx. apply filter_In in Hx as [Hx _]. rewrite Forall_forall in F. auto.
Qed.

(** harmless operations *)
Definition mild (o : dop) : Prop :=
  match o with
  | DPut f => leftover t1 t f
  | DOther _ | DInc => True
  | _ => False
  end.
Lemma mild_mid ops : Forall mild ops -> forall d', mid_a fs t1 t (mfiles d') ->
  mid_a fs t1 t (mfiles (run_dops ops d')) /\ markers (run_dops ops d') = markers d'.
Proof using HI Ht.
  induction 1 as [|o ops Ho HF IH]; intros d' Hd; cbn; [auto|].
  assert (H : mid_a fs t1 t (mfiles (run_dop o d')) /\ markers (run_dop o d') = markers d').
  { destruct o; try destruct Ho; cbn; auto; split; auto; apply put_mid; auto; (now left) || (right; tauto). }
  destruct H as [H1 H2]. rewrite <- H2. now apply IH.
Qed.

Lemma forall_firstn {A} (P : A -> Prop) l' k : Forall P l' -> Forall P (firstn k l').
Proof. intros H. apply Forall_forall. intros x Hx. rewrite Forall_forall in H. apply H. rewrite <- (firstn_skipn k l'). apply in_app_iff. auto. Qed.

Let snap r := @DPut D (mk_mf t KSnap r).
Let wsnap := repeat (@DOther D t) (dn_others z) ++ (if dn_incs z then [DInc] else []) ++
             map snap (dn_snap z) ++ [snap (recs_of l)].
Let diff r := @DPut D (mk_mf t1 KDiff r).

Lemma wsnap_mild : Forall mild wsnap.
Proof using.
  unfold wsnap. repeat (apply Forall_app; split).
  - apply Forall_forall. intros o Ho. apply repeat_spec in Ho. rewrite Ho. exact I.
  - destruct (dn_incs z); repeat constructor.
  - apply Forall_forall. intros o Ho. apply in_map_iff in Ho as (r & <- & _). left. reflexivity.
  - repeat constructor.
Qed.

Lemma wsnap_files d' : Permutation (mfiles d') fs ->
  Permutation (mfiles (run_dops wsnap d')) (fs ++ [mk_mf t KSnap (recs_of l)]).
Proof using HI Ht.
  intros P. unfold wsnap. rewrite !run_dops_app.
  set (d1 := run_dops (if dn_incs z then [DInc] else []) (run_dops (repeat (DOther t) (dn_others z)) d')).
  assert (E : mfiles d1 = mfiles d').
  { unfold d1. rewrite files_same, files_same; auto.
    - apply forallb_forall. intros o Ho. apply repeat_spec in Ho. now rewrite Ho.
    - now destruct (dn_incs z). }
  rewrite <- run_dops_app. apply (put_series t KSnap fs (dn_snap z) (free_t KSnap) d1 []); [|auto].
  rewrite E, app_nil_r. assumption.
Qed.

Lemma d0_chain : chain (fs ++ [mk_mf t KSnap (recs_of l)]) (h ++ [(t, l)]) /\ asc (fs ++ [mk_mf t KSnap (recs_of l)]).
Proof using HI Ht Hl.
  split; [apply chain_snoc; auto; apply (i_chain _ _ _ HI)|].
  apply asc_snoc; [apply (i_asc _ _ _ HI)|]. intros g Hg. cbn. pose proof (times_le g Hg). lia.
Qed.

(** form of the session *)
Lemma session_form : exists conv,
  session_dops deq (Some t1) t l z d = Some (DTouch t :: wsnap ++ conv ++ [DUnmark t1]) /\
  (conv = [] \/
   conv = map diff (dn_diff z) ++ [diff (diffiter deq (recs_of l) (recs_of l0)); DDel t1 KSnap]).
Proof using HI Ht Hl Hh Hm.
  assert (E0 : session_dops deq (Some t1) t l z d =
    match check_needs_diff (dn_limit z) (mfiles (run_dops wsnap (run_dop (DTouch t) d))) with
    | None => None
    | Some None => Some (DTouch t :: wsnap ++ [DUnmark t1])
    | Some (Some (new, old)) => Some (DTouch t :: wsnap ++ map (fun r => DPut (mk_mf (mf_time old) KDiff r)) (dn_diff z) ++
        [DPut (mk_mf (mf_time old) KDiff (diffiter deq (mf_recs new) (mf_recs old))); DDel (mf_time old) KSnap; DUnmark t1])
    end) by reflexivity.
  rewrite E0. clear E0.
  destruct d0_chain as [HC HA].
  pose proof (wsnap_files (run_dop (DTouch t) d) (i_perm _ _ _ HI)) as P.
  destruct (check_ok deq (dn_limit z) fs (mk_mf t KSnap (recs_of l)) (mfiles (run_dops wsnap (run_dop (DTouch t) d))) h t l HC HA)
    as (r & Er & Hr); auto.
  - intros g Hg. apply in_snoc in Hg as [Hg| ->]; cbn; [pose proof (i_pos _ _ _ HI g Hg); lia|].
    pose proof (i_pos _ _ _ HI fl (proj2 (in_snoc _ _ _) (or_intror eq_refl))). cbn in *. lia.
  - unfold fs. rewrite rev_app_distr. reflexivity.
  - rewrite Er. destruct r as [[new old]|].
    + destruct Hr as (-> & fs1 & E). unfold fs in E. apply app_inj_tail in E as [<- E].
      exists (map diff (dn_diff z) ++ [diff (diffiter deq (recs_of l) (recs_of l0)); DDel t1 KSnap]).
      split; [|now right]. rewrite <- E. cbn [mf_time mf_recs fl]. rewrite <- app_assoc. reflexivity.
    + exists []. auto.
Qed.

Lemma conv_files d' : Permutation (mfiles d') (fs ++ [mk_mf t KSnap (recs_of l)]) ->
  Permutation (mfiles (run_dops (map diff (dn_diff z) ++ [diff (diffiter deq (recs_of l) (recs_of l0)); DDel t1 KSnap]) d'))
    (fs0 ++ [mk_mf t1 KDiff (diffiter deq (recs_of l) (recs_of l0)); mk_mf t KSnap (recs_of l)]).
Proof using HI Ht.
  intros P.
  replace (map diff (dn_diff z) ++ [diff (diffiter deq (recs_of l) (recs_of l0)); DDel t1 KSnap])
    with ((map diff (dn_diff z) ++ [diff (diffiter deq (recs_of l) (recs_of l0))]) ++ [DDel t1 KSnap])
    by (rewrite <- app_assoc; reflexivity).
  rewrite run_dops_app. cbn [run_dops run_dop mfiles].
  assert (F : free t1 KDiff (fs ++ [mk_mf t KSnap (recs_of l)])).
  { intros f Hf. apply in_snoc in Hf as [Hf| ->]; [now apply free_t1_diff|]. apply same_name_kind. discriminate. }
  pose proof (put_series t1 KDiff _ (dn_diff z) F d' [] (diffiter deq (recs_of l) (recs_of l0))) as P1.
  rewrite app_nil_r in P1. specialize (P1 P (or_introl eq_refl)).
  etransitivity; [exact (del_perm t1 KSnap _ _ P1)|]. unfold fs. rewrite !del_app.
  rewrite (del_absent t1 KSnap fs0).
  - unfold del_file, fl. cbn [filter]. rewrite same_name_self.
    rewrite (same_name_time t1 KSnap) by (cbn; lia). cbn [negb].
    rewrite (same_name_kind t1 KSnap (mk_mf t1 KDiff _)) by discriminate. cbn [negb].
    rewrite app_nil_r, <- app_assoc. apply Permutation_app_head. cbn. apply perm_swap.
  - intros f Hf. apply same_name_time. destruct (asc_snoc_inv _ _ (i_asc _ _ _ HI)) as [_ F0]. specialize (F0 f Hf). cbn in F0. lia.
Qed.

(** complete session *)
Lemma session_done ops : session_dops deq (Some t1) t l z d = Some ops ->
  exists fs', inv (h ++ [(t, l)]) (run_dops ops d) fs'.
Proof using HI Ht Hl Hh Hm.
  intros E. destruct session_form as (conv & E' & Hc). rewrite E' in E. injection E as <-.
  pose proof (wsnap_files (run_dop (DTouch t) d) (i_perm _ _ _ HI)) as P.
  destruct d0_chain as [HC HA].
  assert (Hmk : markers (run_dops (DTouch t :: wsnap ++ conv ++ [DUnmark t1]) d) = [t]).
  { cbn [run_dops]. rewrite !run_dops_app. cbn [run_dops run_dop markers].
    rewrite markers_same.
    - rewrite markers_same.
      + cbn. rewrite Hm. cbn. destruct (Z.eqb_spec t1 t); [lia|]. cbn.
        destruct (Z.eqb_spec t t1); [lia|]. cbn. destruct (Z.eqb_spec t1 t1); [reflexivity|lia].
      + pose proof wsnap_mild as W. apply forallb_forall. intros o Ho. rewrite Forall_forall in W. specialize (W o Ho). destruct o; try destruct W; reflexivity.
    - destruct Hc as [->| ->]; [reflexivity|]. rewrite forallb_app. cbn. rewrite andb_true_r.
      apply forallb_forall. intros o Ho. apply in_map_iff in Ho as (r & <- & _). reflexivity. }
  assert (Hf : mfiles (run_dops (DTouch t :: wsnap ++ conv ++ [DUnmark t1]) d) =
               mfiles (run_dops conv (run_dops wsnap (run_dop (DTouch t) d)))).
  { cbn [run_dops]. rewrite !run_dops_app. reflexivity. }
  pose proof (i_pos _ _ _ HI fl (proj2 (in_snoc _ _ _) (or_intror eq_refl))) as Hpl. cbn in Hpl.
  destruct Hc as [->| ->].
  - exists (fs ++ [mk_mf t KSnap (recs_of l)]). constructor; auto.
    + rewrite Hf. exact P.
    + intros f Hin. apply in_snoc in Hin as [Hin| ->]; [apply (i_pos _ _ _ HI); auto|cbn; lia].
    + exists h, t, l. auto.
  - exists (fs0 ++ [mk_mf t1 KDiff (diffiter deq (recs_of l) (recs_of l0)); mk_mf t KSnap (recs_of l)]). constructor.
    + subst h. rewrite <- app_assoc. cbn [app]. apply (chain_convert deq).
      unfold fs, fl in HC. rewrite <- !app_assoc in HC. exact HC.
    + unfold fs, fl in HA. rewrite <- app_assoc in HA. revert HA. apply asc_times. rewrite !map_app. reflexivity.
    + rewrite Hf. now apply conv_files.
    + intros f Hin. apply in_app_iff in Hin as [Hin|[<-|[<-|[]]]]; cbn; try lia.
      apply (i_pos _ _ _ HI). apply in_snoc. auto.
    + exists h, t, l. auto.
Qed.

Lemma firstn_snoc_cases {A} k (l' : list A) x : firstn k (l' ++ [x]) = firstn k l' \/ (k > length l')%nat.
Proof.
  destruct (Nat.le_gt_cases k (length l')) as [H|H]; [left|right; lia].
  rewrite firstn_app. replace (k - length l')%nat with 0%nat by lia. now rewrite app_nil_r.
Qed.

(** a session stopped somewhere in the middle *)
Lemma session_crash ops k : session_dops deq (Some t1) t l z d = Some ops ->
  (0 < k < length ops)%nat -> mid fs h t1 t (run_dops (firstn k ops) d).
Proof using HI Ht Hl Hh Hm.
  intros E Hk. destruct session_form as (conv & E' & Hc). rewrite E' in E. injection E as <-.
  destruct k as [|k]; [lia|]. cbn [length] in Hk. rewrite !app_length in Hk. cbn [length] in Hk.
  cbn [firstn run_dops]. set (d1 := run_dop (DTouch t) d).
  assert (Hm1 : markers d1 = [t; t1]).
  { unfold d1. cbn. rewrite Hm. cbn. destruct (Z.eqb_spec t1 t); [lia|]. reflexivity. }
  assert (Ha1 : mid_a fs t1 t (mfiles d1)).
  { exists []. rewrite app_nil_r. split; [apply (i_perm _ _ _ HI)|constructor]. }
  replace (wsnap ++ conv ++ [DUnmark t1]) with ((wsnap ++ conv) ++ [DUnmark t1]) by (rewrite app_assoc; reflexivity).
  destruct (firstn_snoc_cases k (wsnap ++ conv) (DUnmark t1)) as [E|E]; [|rewrite app_length in E; lia].
  rewrite E. clear E.
  assert (Hall : (k = length (wsnap ++ conv))%nat \/ (k < length (wsnap ++ conv))%nat) by (rewrite app_length; lia).
  destruct Hc as [->| ->].
  - rewrite app_nil_r. destruct (mild_mid (firstn k wsnap) (forall_firstn _ _ _ wsnap_mild) d1 Ha1) as [A B].
    split; [left; congruence|left; exact A].
  - set (conv1 := map diff (dn_diff z) ++ [diff (diffiter deq (recs_of l) (recs_of l0))]).
    assert (Econv : map diff (dn_diff z) ++ [diff (diffiter deq (recs_of l) (recs_of l0)); DDel t1 KSnap] = conv1 ++ [DDel t1 KSnap])
      by (unfold conv1; rewrite <- app_assoc; reflexivity).
    assert (M1 : Forall mild (wsnap ++ conv1)).
    { apply Forall_app. split; [apply wsnap_mild|]. unfold conv1. apply Forall_app. split.
      - apply Forall_forall. intros o Ho. apply in_map_iff in Ho as (r & <- & _). right. auto.
      - constructor; [right; auto|constructor]. }
    destruct Hall as [->|Hlt].
    + rewrite firstn_all. rewrite run_dops_app. split.
      * left. rewrite markers_same, markers_same; auto.
        -- pose proof wsnap_mild as W. apply forallb_forall. intros o Ho. rewrite Forall_forall in W. specialize (W o Ho). destruct o; try destruct W; reflexivity.
        -- rewrite forallb_app. cbn. rewrite andb_true_r. apply forallb_forall. intros o Ho. apply in_map_iff in Ho as (r & <- & _). reflexivity.
      * right. exists fs0, h0, l0, l. split; [reflexivity|]. split; [assumption|]. split; [assumption|].
        apply conv_files. apply wsnap_files. apply (i_perm _ _ _ HI).
    + rewrite Econv, app_assoc in Hlt |- *.
      destruct (firstn_snoc_cases k (wsnap ++ conv1) (DDel t1 KSnap)) as [E|E]; [|rewrite app_length in Hlt; cbn in Hlt; lia].
      rewrite E. destruct (mild_mid (firstn k (wsnap ++ conv1)) (forall_firstn _ _ _ M1) d1 Ha1) as [A B].
      split; [left; congruence|left; exact A].
Qed.
End Session.

(** ** regress *)
Section Regress.
Variables (h : list (Z * listing)) (d0 : ddir) (fs0 : list mfile) (h0 : list (Z * listing))
          (t1 : Z) (l0 : listing) (t : Z).
Let fl := mk_mf t1 KSnap (recs_of l0).
Let fs := fs0 ++ [fl].
Hypothesis HI : inv h d0 fs.
Hypothesis Hh : h = h0 ++ [(t1, l0)].
Hypothesis Ht : t1 < t.

Lemma fl_in ex : In fl (fs ++ ex).
Proof. apply in_app_iff. left. apply in_snoc. auto. Qed.

Lemma del_mid t' k files : (t' = t \/ (t' = t1 /\ k = KDiff)) -> mid_a fs t1 t files -> mid_a fs t1 t (del_file t' k files).
Proof using HI Ht.
  intros Hn (ex & P & F). exists (del_file t' k ex). split.
  - rewrite (del_perm t' k _ _ P), del_app. rewrite (del_absent t' k fs); [reflexivity|].
    destruct Hn as [->|[-> ->]].
    + intros f Hf. apply (free_t h d0 fs0 t1 l0 t HI Ht k f Hf).
    + intros f Hf. apply (free_t1_diff h d0 fs0 t1 l0 HI f Hf).
  - apply Forall_forall. intros x Hx. apply filter_In in Hx as [Hx _]. rewrite Forall_forall in F. auto.
Qed.

Definition rmild (o : dop) : Prop :=
  match o with
  | DDel t' k => t' = t \/ (t' = t1 /\ k = KDiff)
  | DDelOther _ | DIncUndo _ => True
  | _ => False
  end.
Lemma rmild_mid ops : Forall rmild ops -> forall d', mid_a fs t1 t (mfiles d') ->
  mid_a fs t1 t (mfiles (run_dops ops d')) /\ markers (run_dops ops d') = markers d'.
Proof using HI Ht.
  induction 1 as [|o ops Ho HF IH]; intros d' Hd; cbn; [auto|].
  assert (H : mid_a fs t1 t (mfiles (run_dop o d')) /\ markers (run_dop o d') = markers d').
  { destruct o; try destruct Ho; cbn; auto; split; auto; apply del_mid; auto. }
  destruct H as [H1 H2]. rewrite <- H2. now apply IH.
Qed.

Lemma two_marks (d : ddir) : (markers d = [t; t1] \/ markers d = [t1; t]) -> two_markers d = Some (t, t1).
Proof using Ht.
  unfold two_markers. intros [-> | ->].
  - destruct (Z.eqb_spec t t1); [lia|]. now rewrite Z.max_l, Z.min_r by lia.
  - destruct (Z.eqb_spec t1 t); [lia|]. now rewrite Z.max_r, Z.min_l by lia.
Qed.

Definition rrest (used diffs : bool) : list dop :=
  [DDel t KSnap; DDel t KDiff; DDelOther t] ++ (if diffs then [DDel t1 KDiff] else []) ++
  [DIncUndo used; DUnmark t].
Definition rpre (used diffs : bool) : list dop :=
  [DDel t KSnap; DDel t KDiff; DDelOther t] ++ (if diffs then [DDel t1 KDiff] else []) ++ [DIncUndo used].
Lemma rrest_pre used diffs : rrest used diffs = rpre used diffs ++ [DUnmark t].
Proof. unfold rrest, rpre. destruct diffs; reflexivity. Qed.
Lemma rpre_mild used diffs : Forall rmild (rpre used diffs).
Proof. apply Forall_forall. unfold rpre. destruct diffs; cbn; intros o H; repeat (destruct H as [<-|H]); try destruct H; cbn; auto. Qed.

(** the deletions leave exactly the old files *)
Lemma rest_files used diffs d : mid_a fs t1 t (mfiles d) ->
  (diffs = false -> forall f, In f (mfiles d) -> same_name t1 KDiff f = false) ->
  Permutation (mfiles (run_dops (rrest used diffs) d)) fs.
Proof using HI Ht.
  intros (ex & P & F) Hd.
  assert (E : mfiles (run_dops (rrest used diffs) d) =
    (if diffs then del_file t1 KDiff else fun x => x) (del_file t KDiff (del_file t KSnap (mfiles d)))).
  { unfold rrest. destruct diffs; reflexivity. }
  rewrite E. clear E.
  set (g := fun f : mfile => negb (mf_time f =? t) && (negb diffs || negb (same_name t1 KDiff f))).
  assert (E : forall l, (if diffs then del_file t1 KDiff else fun x => x) (del_file t KDiff (del_file t KSnap l)) = filter g l).
  { intros l'. unfold del_file, g. assert (Hff : forall (p q : mfile -> bool) w, filter p (filter q w) = filter (fun x => q x && p x) w).
    { intros p q. induction w as [|x w IH]; cbn; [reflexivity|]. destruct (q x); cbn; [|assumption]. destruct (p x); now rewrite IH. }
    destruct diffs.
    - rewrite !Hff. apply filter_ext. intros f. unfold same_name. cbn.
      destruct (mf_time f =? t); cbn; [|reflexivity]. now destruct (mf_kind f).
    - rewrite !Hff. apply filter_ext. intros f. unfold same_name. cbn.
      destruct (mf_time f =? t); cbn; [|reflexivity]. now destruct (mf_kind f). }
  rewrite E, (filter_perm g _ _ P), filter_app.
  assert (E1 : filter g fs = fs).
  { assert (H : forall f, In f fs -> g f = true).
    { intros f Hf. unfold g. pose proof (times_le h d0 fs0 t1 l0 HI f Hf).
      destruct (Z.eqb_spec (mf_time f) t); [lia|]. cbn.
      rewrite (free_t1_diff h d0 fs0 t1 l0 HI f Hf). cbn. apply orb_true_r. }
    clear - H. induction fs as [|f w IH]; cbn; [reflexivity|]. rewrite H by now left. f_equal. apply IH. intros; apply H; now right. }
  assert (E2 : filter g ex = []).
  { assert (H : forall f, In f ex -> g f = false).
    { intros f Hf. rewrite Forall_forall in F. unfold g. destruct (F f Hf) as [Ef|[Ef Ek]].
      - now rewrite Ef, Z.eqb_refl.
      - assert (Hsn : same_name t1 KDiff f = true) by (unfold same_name; rewrite Ef, Ek, Z.eqb_refl; reflexivity).
        destruct diffs; [rewrite Hsn; cbn; apply andb_false_r|]. exfalso.
        rewrite (Hd eq_refl f) in Hsn; [discriminate|]. eapply Permutation_in; [symmetry; exact P|].
        apply in_app_iff. auto. }
    clear - H. induction ex as [|f w IH]; cbn; [reflexivity|]. rewrite H by now left. apply IH. intros; apply H; now right. }
  now rewrite E1, E2, app_nil_r.
Qed.

Lemma b_chain d : mid_b fs h t1 t (mfiles d) ->
  meta_at_time t1 [] (mfiles d) = RdOk (recs_of l0) /\
  existsb (same_name t1 KSnap) (mfiles d) = false /\ existsb (same_name t1 KDiff) (mfiles d) = true.
Proof using HI Hh Ht deq_ok.
  intros (fs1 & h1 & l1 & l & E1 & E2 & Hl & P).
  unfold fs in E1. apply app_inj_tail in E1 as [<- E1]. injection E1 as E1.
  rewrite Hh in E2. apply app_inj_tail in E2 as [<- E2]. injection E2 as <-.
  pose proof (i_chain _ _ _ HI) as HC. pose proof (i_asc _ _ _ HI) as HA.
  assert (Hle : forall f, In f fs0 -> mf_time f < t1).
  { intros f Hf. destruct (asc_snoc_inv _ _ HA) as [_ F]. exact (F f Hf). }
  assert (HC2 : chain (fs0 ++ [mk_mf t1 KDiff (diffiter deq (recs_of l) (recs_of l0)); mk_mf t KSnap (recs_of l)]) (h0 ++ [(t1, l0); (t, l)])).
  { apply (chain_convert deq). pose proof (chain_snoc deq fs h t l HC Hl) as HC3. subst h. unfold fs, fl in HC3. rewrite <- !app_assoc in HC3. exact HC3. }
  assert (HA2 : asc (fs0 ++ [mk_mf t1 KDiff (diffiter deq (recs_of l) (recs_of l0)); mk_mf t KSnap (recs_of l)])).
  { assert (HA3 : asc (fs ++ [mk_mf t KSnap (recs_of l)])).
    { apply asc_snoc; auto. intros g Hg. cbn. pose proof (times_le h d0 fs0 t1 l0 HI g Hg). lia. }
    unfold fs, fl in HA3. rewrite <- app_assoc in HA3. revert HA3. apply asc_times. rewrite !map_app. reflexivity. }
  split; [|split].
  - rewrite (read_ok deq deq_ok _ _ (mfiles d) t1 l0 [] HC2 HA2 P); [now rewrite restrict_nil|].
    apply in_app_iff. right. now left.
  - destruct (existsb _ _) eqn:E; [|reflexivity]. apply existsb_exists in E as (f & Hf & Es).
    apply (Permutation_in _ P) in Hf. apply in_app_iff in Hf as [Hf|[<-|[<-|[]]]].
    + rewrite same_name_time in Es; [discriminate|]. specialize (Hle f Hf). lia.
    + discriminate (eq_trans (eq_sym (same_name_kind t1 KSnap (mk_mf t1 KDiff _) ltac:(discriminate))) Es).
    + rewrite same_name_time in Es; [discriminate|cbn; lia].
  - apply existsb_exists. exists (mk_mf t1 KDiff (diffiter deq (recs_of l) (recs_of l0))). split; [|apply same_name_self].
    eapply Permutation_in; [symmetry; exact P|]. apply in_app_iff. right. now left.
Qed.

Lemma b_put d : mid_b fs h t1 t (mfiles d) -> mid_a fs t1 t (put_file (mk_mf t1 KSnap (recs_of l0)) (mfiles d)).
Proof using HI Hh Ht.
  intros (fs1 & h1 & l1 & l & E1 & E2 & Hl & P).
  unfold fs in E1. apply app_inj_tail in E1 as [<- E1]. injection E1 as E1.
  exists [mk_mf t1 KDiff (diffiter deq (recs_of l) (recs_of l1)); mk_mf t KSnap (recs_of l)]. split.
  - unfold put_file. cbn [mf_time mf_kind]. rewrite (del_perm t1 KSnap _ _ P). rewrite del_absent.
    + unfold fs, fl. rewrite <- !app_assoc. apply Permutation_app_head. cbn.
      symmetry. rewrite (Permutation_cons_append _ (mk_mf t1 KSnap (recs_of l0))). reflexivity.
    + intros f Hf. apply in_app_iff in Hf as [Hf|[<-|[<-|[]]]].
      * apply same_name_time. destruct (asc_snoc_inv _ _ (i_asc _ _ _ HI)) as [_ F]. specialize (F f Hf). cbn in F. lia.
      * apply same_name_kind. discriminate.
      * apply same_name_time. cbn. lia.
  - constructor; [right; auto|]. constructor; [left; reflexivity|constructor].
Qed.

Lemma a_snap d : mid_a fs t1 t (mfiles d) -> existsb (same_name t1 KSnap) (mfiles d) = true.
Proof using.
  intros (ex & P & _). apply existsb_exists. exists fl. split; [|apply same_name_self].
  eapply Permutation_in; [symmetry; exact P|]. apply fl_in.
Qed.

(** one attempt *)
Lemma regress_form used d : mid fs h t1 t d -> exists pre diffs,
  regress_dops used d = Some (pre ++ rrest used diffs) /\
  (pre = [] /\ mid_a fs t1 t (mfiles d) /\ diffs = existsb (same_name t1 KDiff) (mfiles d) \/
   pre = [DPut (mk_mf t1 KSnap (recs_of l0))] /\ mid_b fs h t1 t (mfiles d) /\ diffs = true).
Proof using HI Hh Ht deq_ok.
  intros [Hmk Hd]. unfold regress_dops. rewrite (two_marks d Hmk).
  destruct Hd as [Ha|Hb].
  - exists [], (existsb (same_name t1 KDiff) (mfiles d)). rewrite (a_snap d Ha). rewrite andb_false_r. cbn [app].
    split; [reflexivity|]. left. auto.
  - destruct (b_chain d Hb) as (E1 & E2 & E3).
    exists [DPut (mk_mf t1 KSnap (recs_of l0))], true. rewrite E1, E2, E3. cbn [andb negb]. split; [reflexivity|]. right. auto.
Qed.

Lemma unmark_t (d : ddir) : (markers d = [t; t1] \/ markers d = [t1; t]) ->
  filter (fun x => negb (x =? t)) (markers d) = [t1].
Proof using Ht.
  assert ((t =? t) = true) as E1 by apply Z.eqb_refl. assert ((t1 =? t) = false) as E2 by (apply Z.eqb_neq; lia).
  intros [-> | ->]; cbn; rewrite E1, E2; reflexivity.
Qed.

Lemma others_rest used diffs d : (forall x, In x (others (run_dops (rrest used diffs) d)) -> x <> t) /\
  (forall x, x <> t -> In x (others d) -> In x (others (run_dops (rrest used diffs) d))).
Proof.
  split; intros x; unfold rrest; destruct diffs; cbn; rewrite filter_In.
  1,2: intros [_ H] ->; rewrite Z.eqb_refl in H; discriminate.
  all: intros Hx Hi; split; auto; rewrite (proj2 (Z.eqb_neq _ _) Hx); reflexivity.
Qed.

Lemma attempt_done used d ops : mid fs h t1 t d -> regress_dops used d = Some ops ->
  markers (run_dops ops d) = [t1] /\ Permutation (mfiles (run_dops ops d)) fs /\ incs_used (run_dops ops d) = used.
Proof using HI Hh Ht deq_ok.
  intros Hm E. destruct (regress_form used d Hm) as (pre & diffs & E' & Hc). rewrite E' in E. injection E as <-.
  rewrite run_dops_app.
  assert (H : mid_a fs t1 t (mfiles (run_dops pre d)) /\ markers (run_dops pre d) = markers d /\
    (diffs = false -> forall f, In f (mfiles (run_dops pre d)) -> same_name t1 KDiff f = false)).
  { destruct Hc as [(-> & Ha & ->)|(-> & Hb & ->)].
    - split; [exact Ha|]. split; [reflexivity|]. cbn. intros E f Hf.
      destruct (same_name t1 KDiff f) eqn:Es; [|reflexivity].
      rewrite (proj2 (existsb_exists _ _)) in E; [discriminate|eauto].
    - split; [apply b_put; assumption|]. split; [reflexivity|]. discriminate. }
  destruct H as (Ha & Hmk & Hd). set (d1 := run_dops pre d) in *.
  split; [|split].
  - rewrite rrest_pre, run_dops_app. destruct (rmild_mid _ (rpre_mild used diffs) d1 Ha) as [_ B].
    cbn [run_dops run_dop markers]. rewrite B, Hmk. apply unmark_t. apply Hm.
  - now apply rest_files.
  - unfold rrest. destruct diffs; reflexivity.
Qed.

Lemma attempt_crash used d ops k : mid fs h t1 t d -> regress_dops used d = Some ops ->
  mid fs h t1 t (run_dops (firstn (Nat.min k (length ops - 1)) ops) d).
Proof using HI Hh Ht deq_ok.
  intros Hm E. destruct (regress_form used d Hm) as (pre & diffs & E' & Hc). rewrite E' in E. injection E as <-.
  rewrite rrest_pre, app_assoc. set (n := Nat.min _ _).
  assert (Hn : (n <= length (pre ++ rpre used diffs))%nat).
  { unfold n. rewrite (app_length (pre ++ rpre used diffs)). cbn [length]. lia. }
  rewrite firstn_app. replace (n - length (pre ++ rpre used diffs))%nat with 0%nat by lia. cbn [firstn]. rewrite app_nil_r.
  destruct Hc as [(-> & Ha & ->)|(-> & Hb & ->)]; cbn [app].
  - destruct (rmild_mid (firstn n (rpre used (existsb (same_name t1 KDiff) (mfiles d)))) (forall_firstn _ _ _ (rpre_mild _ _)) d Ha) as [A B].
    split; [rewrite B; apply Hm|left; exact A].
  - destruct n as [|n]; [exact Hm|]. cbn [firstn run_dops].
    set (d1 := run_dop _ d). assert (Ha : mid_a fs t1 t (mfiles d1)) by (apply b_put; assumption).
    destruct (rmild_mid (firstn n (rpre used true)) (forall_firstn _ _ _ (rpre_mild _ _)) d1 Ha) as [A B].
    split; [rewrite B; apply Hm|left; exact A].
Qed.

Lemma tries_done used att : forall d, mid fs h t1 t d -> exists d',
  regress_tries used att d = Some d' /\ markers d' = [t1] /\ Permutation (mfiles d') fs /\ incs_used d' = used.
Proof using HI Hh Ht deq_ok.
  induction att as [|k att IH]; intros d Hm; cbn [regress_tries];
    destruct (regress_form used d Hm) as (pre & diffs & E & _); rewrite E.
  - eexists. split; [reflexivity|]. now apply attempt_done.
  - apply IH. now apply (attempt_crash used).
Qed.
End Regress.
End MD.
