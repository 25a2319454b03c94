(** Metadata files under power failures: a session *)
From Coq Require Import List ZArith Bool Lia Sorting.Sorted Sorting.Permutation.
From Verif Require Import Base L_Base M_Iter L_Iter L_Tree L_Lookup L_Core M_MetaMgr L_MetaMgr L_MetaDir M_PowerDir L_PowerDir L_PowerDir2.
From Verif Require M_Power.
Import List ListNotations.
Local Open Scope Z_scope.

Section PD3.
Context {D : Type}.
Variable deq : D -> D -> bool.
Hypothesis deq_ok : forall x y, deq x y = true <-> x = y.
Notation mfile := (@mfile D).
Notation ddir := (@ddir D).
Notation pdir := (@pdir D).
Notation recs := (list (idx * option D)).
Notation listing := (list (idx * D)).
Notation lsorted := (sorted_by (@fst idx D)).
Notation cur := M_Power.cur.
Notation poss := M_Power.poss.

Variables (h : list (Z * listing)) (d : ddir) (fs0 : list mfile) (h0 : list (Z * listing))
          (t1 : Z) (l0 : listing) (t : Z) (l : listing) (z : @dnoise D).
Let fl := mk_mf t1 KSnap (recs_of l0).
Let fs := fs0 ++ [fl].
Hypothesis HI : inv deq h d fs.
Hypothesis Hh : h = h0 ++ [(t1, l0)].
Hypothesis Hm : markers d = [t1].
Hypothesis Ht : t1 < t.
Hypothesis Hl : lsorted l.
Variable ops : list (@dop D).
Hypothesis Hops : session_dops deq (Some t1) t l z d = Some ops.
Let fin := run_dops ops d.

Notation Mboth := (Mboth t1 t).
Notation Mold := (Mold t1 t).
Notation Mnew := (Mnew t1 t).
Notation QA := (QA fs0 t1 l0 t).
Notation QB := (QB deq fs0 t1 l0 t).
Notation dif := (dif deq t1 l0).
Notation new := (new t).

Definition sG (p : pdir) : Prop :=
  (mwithin p Mold /\ within p (fun x y v => v = lookup x y fs)) \/
  (mwithin p Mboth /\ (within p QA \/ within p (QB l))) \/
  (mwithin p Mnew /\ within p (fun x y v => v = lookup x y (mfiles fin))).

Lemma run_nodup os : forall d' : ddir, NoDup (map nm (mfiles d')) -> NoDup (map nm (mfiles (run_dops os d'))).
Proof.
  induction os as [|o os IH]; intros d' H; cbn; [assumption|]. apply IH. destruct o; cbn; auto; [now apply nodup_put|now apply nodup_filter].
Qed.
Lemma fin_nodup : NoDup (map nm (mfiles fin)).
Proof using HI Hh Ht deq_ok. apply run_nodup. apply (d0_nodup deq deq_ok h d fs0 h0 t1 l0 t HI Hh Ht). Qed.

Lemma run_unmark a b x (e : ddir) : mfiles (run_dops (a ++ b ++ [DUnmark x]) e) = mfiles (run_dops b (run_dops a e)).
Proof. now rewrite !run_dops_app. Qed.
Definition conv_pops (conv : bool) : list (@pop D) :=
  if conv then wr t1 KDiff (dn_diff z) (diffiter deq (recs_of l) (recs_of l0)) ++ [PDel t1 KSnap] else [].
Lemma session_shape : exists conv,
  session_pops true ops = [PTouch t; PForceMark t] ++ wr t KSnap (dn_snap z) (recs_of l) ++ conv_pops conv ++ [PSync; PUnmark t1] /\
  (conv = false -> Permutation (mfiles fin) (fs ++ [new l])) /\
  (conv = true -> Permutation (mfiles fin) (fs0 ++ [dif l; new l])).
Proof using HI Hh Ht Hl Hm Hops.
  destruct (session_form deq h d fs0 h0 t1 l0 t l z HI Hh Hm Ht Hl) as (conv & E & Hc).
  rewrite Hops in E. injection E as E.
  pose proof (wsnap_files deq h d fs0 t1 l0 t l z HI Ht (run_dop (DTouch t) d) (i_perm _ _ _ _ HI)) as P.
  destruct Hc as [-> | ->].
  - exists false. split; [|split; [intros _|discriminate]].
    + rewrite E. cbn [session_pops]. rewrite <- !app_assoc. rewrite session_others, session_incs. cbn [app].
      rewrite (session_series t KSnap (dn_snap z) (recs_of l) [DUnmark t1]) by exact I. reflexivity.
    + unfold fin. rewrite E. cbn [run_dops]. rewrite run_unmark. exact P.
  - exists true. split; [|split; [discriminate|intros _]].
    + rewrite E. cbn [session_pops]. rewrite <- !app_assoc. rewrite session_others, session_incs. cbn [app].
      rewrite (session_series t KSnap (dn_snap z) (recs_of l)).
      * rewrite (session_series t1 KDiff (dn_diff z)) by exact I. unfold conv_pops. rewrite <- !app_assoc. reflexivity.
      * destruct (dn_diff z); cbn; apply andb_false_r.
    + unfold fin. rewrite E. cbn [run_dops]. rewrite run_unmark.
      apply (conv_files deq h d fs0 t1 l0 t l z HI Ht _ P).
Qed.
Lemma start_sim : sim (run_pops (session_pops true ops) (of_dir d)) fin.
Proof. apply sim_session, sim_of. Qed.

Lemma session_stage : always sG (session_pops true ops) (of_dir d).
Proof using HI Hh Ht Hl Hm Hops deq_ok.
  destruct session_shape as (conv & E & P0 & P1). pose proof start_sim as S1. rewrite E in S1 |- *.
  set (A := [PTouch t; PForceMark t]) in *. set (W := wr t KSnap (dn_snap z) (recs_of l)) in *. set (C := conv_pops conv) in *.
  assert (W0 : wf (of_dir d)) by apply wf_of.
  assert (F0 : within (of_dir d) (fun x y v => v = lookup x y fs)).
  { intros x y v. cbn. intros <-. apply (d0_lookup deq deq_ok h d fs0 h0 t1 l0 t HI Hh Ht). }
  assert (M0 : mwithin (of_dir d) Mold).
  { intros x b. cbn. intros <-. unfold marked, Mold. rewrite Hm. cbn. right. apply orb_false_r. }
  set (pA := run_pops A (of_dir d)).
  assert (WA : wf pA) by (apply wf_run; assumption).
  assert (FA : within pA (fun x y v => v = lookup x y fs)) by (apply within_run; auto; repeat constructor).
  assert (MA : mwithin pA Mboth).
  { intros x b. cbn. unfold Mboth. destruct (Z.eqb_spec x t) as [->|N]; cbn.
    - auto.
    - intros Hb. destruct (M0 x b Hb) as [|E1]; [contradiction|exact E1]. }
  assert (FQ : forall q, within q (fun x y v => v = lookup x y fs) -> within q QA) by (intros q Hq x y v Hv; right; exact (Hq x y v Hv)).
  set (pW := run_pops W pA).
  assert (WW : wf pW) by (apply wf_run; assumption).
  assert (MW : mwithin pW Mboth) by (apply mwithin_run; auto; apply wr_okm).
  assert (FW : within pW (fun x y v => if nameb t KSnap x y then v = Some (recs_of l) else v = lookup x y fs)).
  { apply wr_exact; [assumption|]. eapply within_weaken; [exact FA|]. cbn. auto. }
  assert (FWA : within pW QA).
  { apply within_run; auto. apply wr_okf. intros v. left. now left. }
  set (pC := run_pops C pW).
  assert (WC : wf pC) by (apply wf_run; assumption).
  assert (CM : forall M, Forall (okm M) C).
  { intros M. unfold C, conv_pops. destruct conv; [|constructor]. apply Forall_app. split; [apply wr_okm|repeat constructor]. }
  assert (MC : mwithin pC Mboth) by (apply mwithin_run; auto).
  assert (FC : always (fun p => mwithin p Mboth /\ (within p QA \/ within p (QB l))) C pW).
  { unfold C, conv_pops. destruct conv; [|apply always_nil; auto]. apply always_app.
    - eapply always_weaken; [apply (within_always _ QA Mboth)|]; auto.
      + apply wr_okf. intros v. left. right. auto.
      + apply wr_okm.
      + intros q [H1 H2]. auto.
    - set (pX := run_pops _ pW).
      assert (WX : wf pX) by (apply wf_run; assumption).
      assert (MX : mwithin pX Mboth) by (apply mwithin_run; auto; apply wr_okm).
      assert (FX : within pX (QB l)).
      { eapply within_weaken.
        - apply (wr_exact t1 KDiff (dn_diff z) (diffiter deq (recs_of l) (recs_of l0)) pW (fun x y v => if nameb t KSnap x y then v = Some (recs_of l) else v = lookup x y fs) WW).
          intros x y v Hv. right. exact (FW x y v Hv).
        - assert (LF : forall x y, lo t1 t x y -> lookup x y fs = None) by exact (lo_free deq deq_ok h d fs0 h0 t1 l0 t HI Hh Ht).
          cbn beta. intros x y v Hv. left.
          rewrite lookup_app, !lookup_cons. cbn [L_PowerDir2.dif L_PowerDir2.new mf_time mf_kind mf_recs]. rewrite (nameb_sym x y t1), (nameb_sym x y t).
          fold fl fs. destruct (nameb t1 KDiff x y) eqn:E1.
          + rewrite (LF x y); [exact Hv|]. apply nameb_eq in E1 as [-> ->]. right. auto.
          + destruct (nameb t KSnap x y) eqn:E2.
            * rewrite (LF x y); [exact Hv|]. apply nameb_eq in E2 as [-> ->]. now left.
            * rewrite Hv. now destruct (lookup x y fs). }
      eapply always_weaken; [apply (within_always _ (QB l) Mboth)|]; auto.
      + constructor; [right; auto|constructor].
      + repeat constructor.
      + intros q [H1 H2]. auto. }
  assert (HC : mwithin pC Mboth /\ (within pC QA \/ within pC (QB l))).
  { pose proof (FC (length C)) as H. rewrite firstn_all in H. exact H. }
  set (pS := run_pop pC PSync).
  assert (FS : within pS (fun x y v => v = lookup x y (mfiles fin))).
  { intros x y v Hv. destruct S1 as [_ S1]. specialize (S1 x y). rewrite <- S1.
    rewrite !run_app. fold pA. fold pW. fold pC. cbn. cbn in Hv. exact Hv. }
  assert (MS : mwithin pS Mboth) by (apply mwithin_step; auto; exact I).
  apply always_app; [|apply always_app; [|apply always_app]].
  - apply always_cons; [left; auto|]. apply always_cons.
    + left. split; [apply mwithin_step; auto; now left|apply within_step; auto; exact I].
    + apply always_nil. right. left. auto.
  - eapply always_weaken; [apply (within_always W QA Mboth)|]; auto.
    + apply wr_okf. intros v. left. now left.
    + apply wr_okm.
    + intros q [H1 H2]. right. left. auto.
  - eapply always_weaken; [exact FC|]. intros q Hq. right. left. exact Hq.
  - fold pA. fold pW. fold pC. apply always_cons; [right; left; exact HC|]. fold pS.
    assert (MN : mwithin pS Mnew).
    { intros x b Hb. pose proof (MS x b Hb) as H. unfold Mboth, Mnew in *. destruct (Z.eqb_spec x t1); [auto|]. right. rewrite orb_false_r in H. exact H. }
    apply always_cons; [right; right; auto|]. apply always_nil. right. right.
    split; [apply mwithin_step; auto; [now apply wf_run1|now left]|apply within_step; auto; [now apply wf_run1|exact I]].
Qed.

Lemma found_s p d' : sG p -> found p d' ->
  mid deq fs h t1 t d' \/ (markers d' = [t1] /\ Permutation (mfiles d') fs) \/
  (markers d' = [t] /\ Permutation (mfiles d') (mfiles fin)).
Proof using HI Hh Ht Hl Hm Hops deq_ok.
  intros HG HF. destruct HG as [HG|[HG|[HM HG]]].
  - destruct (found_r deq deq_ok h d fs0 h0 t1 l0 t HI Hh Ht p d' (or_intror HG) HF); auto.
  - assert (HR : rG deq fs0 t1 l0 t p).
    { left. destruct HG as [H1 [H2|H2]]; [auto|]. split; [assumption|]. right. eauto. }
    destruct (found_r deq deq_ok h d fs0 h0 t1 l0 t HI Hh Ht p d' HR HF); auto.
  - destruct HF as (N1 & N2 & Fm & Ff).
    assert (P : Permutation (mfiles d') (mfiles fin)).
    { apply perm_lookup; [assumption|apply fin_nodup|]. intros x y. exact (HG _ _ _ (Ff x y)). }
    destruct (marked t1 d') eqn:Em.
    + left. split.
      * apply found_marks2; [lia|assumption|]. intros x. destruct (HM _ _ (Fm x)) as [->|E].
        -- rewrite Em, Z.eqb_refl. now rewrite orb_true_r.
        -- destruct (Z.eqb_spec x t1) as [->|]; [rewrite Em; now rewrite orb_true_r|]. rewrite orb_false_r. exact E.
      * destruct session_shape as (conv & _ & P0 & P1). destruct conv.
        -- right. exists fs0, h0, l0, l. split; [reflexivity|]. split; [assumption|]. split; [assumption|]. rewrite P. now apply P1.
        -- left. exists [new l]. split; [rewrite P; now apply P0|]. constructor; [now left|constructor].
    + right. right. split; [|assumption]. apply found_marks1; [assumption|]. intros x. destruct (HM _ _ (Fm x)) as [->|E]; [|exact E].
      rewrite Em. symmetry. apply Z.eqb_neq. lia.
Qed.
End PD3.
