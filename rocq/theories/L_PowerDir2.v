(** Metadata files under power failures: the stages of a session and of a regress *)
From Coq Require Import List ZArith Bool Lia Sorting.Sorted Sorting.Permutation.
From Verif Require Import Base L_Base M_Iter L_Iter L_Tree L_Lookup L_Core M_MetaMgr L_MetaMgr L_MetaDir M_PowerDir L_PowerDir.
From Verif Require M_Power.
Import List ListNotations.
Local Open Scope Z_scope.

Section PD2.
Context {D : Type}.
Variable deq : D -> D -> bool.
Hypothesis deq_ok : forall x y, deq x y = true <-> x = y.
Notation mfile := (@mfile D).
Notation ddir := (@ddir D).
Notation pdir := (@pdir D).
Notation recs := (list (idx * option D)).
Notation listing := (list (idx * D)).
Notation lsorted := (sorted_by (@fst idx D)).
Notation cur := M_Power.cur.
Notation poss := M_Power.poss.
Notation fpred := (Z -> mkind -> option recs -> Prop).
Notation mpred := (Z -> bool -> Prop).

Definition within (p : pdir) (Q : fpred) : Prop := forall x y v, poss (pfile p x y) v -> Q x y v.
Definition mwithin (p : pdir) (M : mpred) : Prop := forall x b, poss (pmark p x) b -> M x b.
Definition okf (Q : fpred) (o : @pop D) : Prop :=
  match o with
  | PWrite f => forall v, Q (mf_time f) (mf_kind f) v
  | PReplace f => Q (mf_time f) (mf_kind f) (Some (mf_recs f))
  | PDel t k => Q t k None
  | _ => True
  end.
Definition okm (M : mpred) (o : @pop D) : Prop :=
  match o with PTouch t => M t true | PUnmark t => M t false | _ => True end.
Lemma within_step p o Q : wf p -> within p Q -> okf Q o -> within (run_pop p o) Q.
Proof.
  intros [_ Hw] H Ho x y v. destruct o; cbn in *; try apply H.
  - destruct ((x =? mf_time f) && kind_eqb y (mf_kind f)) eqn:E; cbn; [|apply H]. intros _.
    apply (nameb_eq (mf_time f) (mf_kind f) x y) in E as [-> ->]. apply Ho.
  - destruct ((x =? mf_time f) && kind_eqb y (mf_kind f)) eqn:E; cbn; [|apply H].
    apply (nameb_eq (mf_time f) (mf_kind f) x y) in E as [-> ->]. intros [A| ->]; [now apply H|assumption].
  - destruct (_ && _); cbn; [|apply H]. intros ->. apply H, Hw.
  - destruct ((x =? t) && kind_eqb y k) eqn:E; cbn; [|apply H].
    apply (nameb_eq t k x y) in E as [-> ->]. intros [A| ->]; [now apply H|assumption].
  - intros ->. apply H, Hw.
Qed.
Lemma mwithin_step p o M : wf p -> mwithin p M -> okm M o -> mwithin (run_pop p o) M.
Proof.
  intros [Hw _] H Ho x b. destruct o; cbn in *; try apply H.
  - destruct (Z.eqb_spec x t) as [->|]; cbn; [|apply H]. intros [A| ->]; [now apply H|assumption].
  - destruct (x =? t); cbn; [|apply H]. intros ->. apply H, Hw.
  - destruct (Z.eqb_spec x t) as [->|]; cbn; [|apply H]. intros [A| ->]; [now apply H|assumption].
  - intros ->. apply H, Hw.
Qed.
Lemma within_run l Q : Forall (okf Q) l -> forall p, wf p -> within p Q -> within (run_pops l p) Q.
Proof.
  unfold run_pops. induction 1 as [|o l Ho HF IH]; intros p Hw Hp; cbn; [assumption|]. apply IH; [now apply wf_run1|now apply within_step].
Qed.
Lemma mwithin_run l M : Forall (okm M) l -> forall p, wf p -> mwithin p M -> mwithin (run_pops l p) M.
Proof.
  unfold run_pops. induction 1 as [|o l Ho HF IH]; intros p Hw Hp; cbn; [assumption|]. apply IH; [now apply wf_run1|now apply mwithin_step].
Qed.
Lemma within_always l Q M p : Forall (okf Q) l -> Forall (okm M) l -> wf p -> within p Q -> mwithin p M ->
  always (fun p => mwithin p M /\ within p Q) l p.
Proof.
  intros A B Hw Hp Hm k. split; [apply mwithin_run|apply within_run]; auto; apply forall_firstn; assumption.
Qed.
Lemma within_weaken p (Q Q' : fpred) : within p Q -> (forall x y v, Q x y v -> Q' x y v) -> within p Q'.
Proof. intros H HQ x y v Hv. apply HQ, H, Hv. Qed.
Lemma always_weaken (G G' : pdir -> Prop) l (p : pdir) : always G l p -> (forall q, G q -> G' q) -> always G' l p.
Proof. intros H HG k. apply HG, H. Qed.
Lemma force_exact a b p Q : within p (fun x y v => nameb a b x y = true \/ Q x y v) ->
  within (run_pop p (PForce a b)) (fun x y v => if nameb a b x y then v = cur (pfile p a b) else Q x y v).
Proof.
  intros H x y v. cbn. fold (nameb a b x y). destruct (nameb a b x y) eqn:E; cbn.
  - apply nameb_eq in E as [-> ->]. auto.
  - intros Hv. destruct (H _ _ _ Hv) as [E1|]; [congruence|assumption].
Qed.
(** everything is forced: only what is there can be found *)
Lemma sync_exact p d : sim p d -> within (run_pop p PSync) (fun x y v => v = lookup x y (mfiles d)).
Proof. intros [_ H] x y v. cbn. intros ->. apply H. Qed.

(** writing a file and closing it *)
Definition wr (t : Z) (k : mkind) (rs : list recs) (r : recs) : list (@pop D) :=
  map (fun r => PWrite (mk_mf t k r)) rs ++ [PWrite (mk_mf t k r); PForce t k].
Lemma session_series t k rs r rest :
  match rest with DPut g :: _ => same_name t k g = false | _ => True end ->
  session_pops true (map (fun r => DPut (mk_mf t k r)) rs ++ DPut (@mk_mf D t k r) :: rest) = wr t k rs r ++ session_pops true rest.
Proof.
  intros H. unfold wr. induction rs as [|r0 rs IH].
  - cbn [map app session_pops]. assert (E : last_write (mk_mf t k r) rest = true).
    { unfold last_write. destruct rest as [|[]]; auto. cbn. now rewrite H. }
    rewrite E. reflexivity.
  - cbn [map app session_pops]. rewrite IH. destruct rs as [|r1 rs]; cbn; rewrite same_name_self; reflexivity.
Qed.
Lemma session_others n t rest : session_pops true (repeat (@DOther D t) n ++ rest) = session_pops true rest.
Proof. induction n; cbn; auto. Qed.
Lemma session_incs (b : bool) rest : session_pops true ((if b then [@DInc D] else []) ++ rest) = session_pops true rest.
Proof. destruct b; reflexivity. Qed.
Lemma wr_okf t k rs r (Q : fpred) : (forall v, Q t k v) -> Forall (okf Q) (wr t k rs r).
Proof.
  intros H. apply Forall_forall. intros o Ho. apply in_app_iff in Ho as [Ho|[<-|[<-|[]]]]; cbn; auto.
  apply in_map_iff in Ho as (r0 & <- & _). cbn. auto.
Qed.
Lemma wr_okm t k rs r (M : mpred) : Forall (okm M) (wr t k rs r).
Proof.
  apply Forall_forall. intros o Ho. apply in_app_iff in Ho as [Ho|[<-|[<-|[]]]]; cbn; auto.
  apply in_map_iff in Ho as (r0 & <- & _). exact I.
Qed.
Lemma wr_exact t k rs r p Q : wf p -> within p (fun x y v => nameb t k x y = true \/ Q x y v) ->
  within (run_pops (wr t k rs r) p) (fun x y v => if nameb t k x y then v = Some r else Q x y v).
Proof.
  intros Hw H. unfold wr. rewrite run_app.
  set (p1 := run_pops (map _ rs) p). change (run_pops [PWrite (mk_mf t k r); PForce t k] p1) with (run_pop (run_pop p1 (PWrite (mk_mf t k r))) (PForce t k)).
  assert (H0 : forall v, nameb t k t k = true \/ Q t k v) by (intros v; left; now apply nameb_eq).
  pose proof (force_exact t k (run_pop p1 (PWrite (mk_mf t k r))) Q) as F.
  assert (E : cur (pfile (run_pop p1 (PWrite (mk_mf t k r))) t k) = Some r).
  { cbn. fold (nameb t k t k). now rewrite (proj2 (nameb_eq t k t k)). }
  rewrite E in F. apply F. apply within_step.
  - apply wf_run; assumption.
  - apply within_run; auto. apply Forall_forall. intros o Ho. apply in_map_iff in Ho as (r0 & <- & _). cbn. auto.
  - cbn. auto.
Qed.

(** ** what is found *)
Lemma found_marks1 (d : ddir) u : NoDup (markers d) -> (forall x, marked x d = (x =? u)) -> markers d = [u].
Proof.
  unfold marked. intros ND H. assert (Hin : forall x, In x (markers d) <-> x = u).
  { intros x. rewrite <- Z.eqb_eq, <- H. rewrite existsb_exists. split; [intros Hx; exists x; split; [assumption|apply Z.eqb_refl]|].
    intros (y & Hy & E). apply Z.eqb_eq in E. now subst. }
  apply Permutation_length_1_inv. apply NoDup_Permutation; [repeat constructor; intros []|assumption|].
  intros x. rewrite Hin. cbn. intuition congruence.
Qed.
Lemma found_marks2 (d : ddir) u w : u <> w -> NoDup (markers d) -> (forall x, marked x d = (x =? u) || (x =? w)) ->
  markers d = [u; w] \/ markers d = [w; u].
Proof.
  unfold marked. intros N ND H. assert (Hin : forall x, In x (markers d) <-> x = u \/ x = w).
  { intros x. rewrite <- !Z.eqb_eq, <- orb_true_iff, <- H. rewrite existsb_exists. split; [intros Hx; exists x; split; [assumption|apply Z.eqb_refl]|].
    intros (y & Hy & E). apply Z.eqb_eq in E. now subst. }
  apply Permutation_length_2_inv. apply NoDup_Permutation; [|assumption|].
  - constructor; [intros [E|[]]; congruence|repeat constructor; intros []].
  - intros x. rewrite Hin. cbn. intuition congruence.
Qed.

Section Stages.
Variables (h : list (Z * listing)) (d0 : ddir) (fs0 : list mfile) (h0 : list (Z * listing))
          (t1 : Z) (l0 : listing) (t : Z).
Let fl := mk_mf t1 KSnap (recs_of l0).
Let fs := fs0 ++ [fl].
Hypothesis HI : inv deq h d0 fs.
Hypothesis Hh : h = h0 ++ [(t1, l0)].
Hypothesis Ht : t1 < t.

Lemma asc_nodup (l : list mfile) : asc l -> NoDup (map nm l).
Proof.
  induction l as [|f l IH]; intros A; cbn; [constructor|]. inversion A as [|? ? A' F]; subst. constructor; [|auto].
  intros Hi. apply in_map_iff in Hi as (g & E & Hg). rewrite Forall_forall in F. specialize (F g Hg).
  unfold nm in E. injection E as E _. lia.
Qed.
Lemma fs_nodup : NoDup (map nm fs).
Proof using HI Hh Ht deq_ok. apply asc_nodup, (i_asc _ _ _ _ HI). Qed.
Lemma d0_nodup : NoDup (map nm (mfiles d0)).
Proof using HI Hh Ht deq_ok. eapply Permutation_NoDup; [apply Permutation_map, Permutation_sym, (i_perm _ _ _ _ HI)|apply fs_nodup]. Qed.
Lemma d0_lookup x y : lookup x y (mfiles d0) = lookup x y fs.
Proof using HI Hh Ht deq_ok. apply lookup_perm; [apply d0_nodup|apply (i_perm _ _ _ _ HI)]. Qed.
Lemma fs0_lookup y : lookup t1 y fs0 = None.
Proof using HI Hh Ht deq_ok.
  apply lookup_none. intros f Hf. apply same_name_time. destruct (asc_snoc_inv _ _ (i_asc _ _ _ _ HI)) as [_ F]. specialize (F f Hf). cbn in F. lia.
Qed.
Lemma fs_lookup_old : lookup t1 KSnap fs = Some (recs_of l0).
Proof using HI Hh Ht deq_ok.
  unfold fs. rewrite lookup_app, fs0_lookup, lookup_cons. cbn [fl mf_time mf_kind mf_recs].
  now rewrite (proj2 (nameb_eq t1 KSnap t1 KSnap)).
Qed.

Definition lo (x : Z) (y : mkind) : Prop := x = t \/ (x = t1 /\ y = KDiff).
Definition QA : fpred := fun x y v => lo x y \/ v = lookup x y fs.
Definition dif (l : listing) : mfile := mk_mf t1 KDiff (diffiter deq (recs_of l) (recs_of l0)).
Definition new (l : listing) : mfile := mk_mf t KSnap (recs_of l).
Definition QB (l : listing) : fpred := fun x y v =>
  v = lookup x y (fs ++ [dif l; new l]) \/ (x = t1 /\ y = KSnap /\ v = None).
Definition Mboth : mpred := fun x b => b = (x =? t) || (x =? t1).
Definition Mold : mpred := fun x b => x = t \/ b = (x =? t1).    (* the new one perhaps *)
Definition Mnew : mpred := fun x b => x = t1 \/ b = (x =? t).    (* the old one perhaps *)

Lemma lo_free x y : lo x y -> lookup x y fs = None.
Proof using HI Hh Ht deq_ok.
  intros [->|[-> ->]]; apply lookup_none; [apply (free_t deq h d0 fs0 t1 l0 t HI Ht)|apply (free_t1_diff deq h d0 fs0 t1 l0 HI)].
Qed.
Lemma found_a files : NoDup (map nm files) -> (forall x y, QA x y (lookup x y files)) -> mid_a fs t1 t files.
Proof using HI Hh Ht deq_ok.
  intros ND H. set (ex := filter (fun f => (mf_time f =? t) || same_name t1 KDiff f) files).
  assert (Hlo : forall f, In f ex -> lo (mf_time f) (mf_kind f)).
  { intros f Hf. apply filter_In in Hf as [_ E]. apply orb_true_iff in E as [E|E]; [left; now apply Z.eqb_eq|].
    apply same_name_eq in E. unfold nm in E. injection E as E1 E2. right. auto. }
  exists ex. split.
  - apply perm_lookup; [assumption| |].
    + apply nodup_app; [apply fs_nodup|now apply nodup_filter|]. intros f Hf. apply lookup_none, lo_free. now apply Hlo.
    + intros x y. rewrite lookup_app.
      assert (Hd : lo x y \/ ~ lo x y).
      { unfold lo. destruct (Z.eq_dec x t); [auto|]. destruct (Z.eq_dec x t1); [|tauto]. destruct y; [right; intuition congruence|auto]. }
      destruct Hd as [L|L].
      * rewrite (lo_free x y L). symmetry. apply lookup_filter. intros f E. unfold nm in E. injection E as E1 E2.
        destruct L as [->|[-> ->]]; [rewrite E1, Z.eqb_refl; reflexivity|].
        rewrite (proj2 (same_name_eq t1 KDiff f)); [apply orb_true_r|]. unfold nm. congruence.
      * destruct (H x y) as [L'|E]; [contradiction|]. rewrite E. destruct (lookup x y fs) as [r|]; [reflexivity|].
        symmetry. apply lookup_none. intros f Hf. destruct (same_name x y f) eqn:Es; [|reflexivity].
        apply same_name_eq in Es. unfold nm in Es. injection Es as E1 E2. exfalso. apply L. rewrite <- E1, <- E2. now apply Hlo.
  - apply Forall_forall. intros f Hf. destruct (Hlo f Hf) as [E|[E1 E2]]; [now left|right; auto].
Qed.
Lemma b_nodup l : NoDup (map nm (fs0 ++ [dif l; new l])).
Proof using HI Hh Ht deq_ok.
  apply nodup_app.
  - apply asc_nodup. destruct (asc_snoc_inv _ _ (i_asc _ _ _ _ HI)) as [A _]. exact A.
  - cbn. constructor; [|repeat constructor; intros []]. intros [E|[]]. discriminate.
  - destruct (asc_snoc_inv _ _ (i_asc _ _ _ _ HI)) as [_ F]. cbn in F.
    intros f Hf g Hg. specialize (F g Hg). apply same_name_time. destruct Hf as [<-|[<-|[]]]; cbn; lia.
Qed.
Lemma b_lookup l x y : lookup x y (fs0 ++ [dif l; new l]) = if nameb t1 KSnap x y then None else lookup x y (fs ++ [dif l; new l]).
Proof using HI Hh Ht deq_ok.
  unfold fs. rewrite <- app_assoc, !lookup_app. cbn [app]. rewrite (lookup_cons x y fl). cbn [fl mf_time mf_kind mf_recs].
  rewrite (nameb_sym x y). destruct (nameb t1 KSnap x y) eqn:E; [|reflexivity]. apply nameb_eq in E as [-> ->].
  rewrite fs0_lookup, !lookup_cons. cbn [dif new mf_time mf_kind].
  assert (E : nameb t1 KSnap t KSnap = false) by (unfold nameb; destruct (Z.eqb_spec t t1); [lia|reflexivity]).
  rewrite E. unfold nameb. cbn. now rewrite andb_false_r.
Qed.
Lemma b_found l files : NoDup (map nm files) -> lsorted l -> (forall x y, QB l x y (lookup x y files)) ->
  mid_a fs t1 t files \/ mid_b deq fs h t1 t files.
Proof using HI Hh Ht deq_ok.
  intros ND Hl H. destruct (lookup t1 KSnap files) as [r|] eqn:E.
  - left. apply found_a; [assumption|]. intros x y. destruct (H x y) as [E1|(-> & -> & E1)]; [|congruence].
    unfold QA, lo. rewrite E1. rewrite lookup_app.
    destruct (Z.eq_dec x t) as [->|N]; [auto|]. destruct (Z.eq_dec x t1) as [->|N1].
    + destruct y; [|auto]. right. rewrite fs_lookup_old. reflexivity.
    + right. destruct (lookup x y fs) eqn:E2; [reflexivity|]. rewrite !lookup_cons. cbn [dif new mf_time mf_kind]. unfold nameb.
      destruct (Z.eqb_spec t1 x); [congruence|]. destruct (Z.eqb_spec t x); [congruence|]. reflexivity.
  - right. exists fs0, h0, l0, l. repeat split; auto. apply perm_lookup; [assumption|apply b_nodup|].
    intros x y. fold (dif l) (new l). rewrite b_lookup. destruct (nameb t1 KSnap x y) eqn:En.
    + apply nameb_eq in En as [-> ->]. exact E.
    + destruct (H x y) as [E1|(-> & -> & _)]; [assumption|]. rewrite (proj2 (nameb_eq t1 KSnap t1 KSnap)) in En by auto. discriminate.
Qed.

(** ** a regress *)
Definition rG (p : pdir) : Prop :=
  (mwithin p Mboth /\ (within p QA \/ exists l, lsorted l /\ within p (QB l))) \/
  (mwithin p Mold /\ within p (fun x y v => v = lookup x y fs)).
Lemma found_r p d : rG p -> found p d ->
  mid deq fs h t1 t d \/ (markers d = [t1] /\ Permutation (mfiles d) fs).
Proof using HI Hh Ht deq_ok.
  intros HG (N1 & N2 & Fm & Ff). destruct HG as [[Hm Hf]|[Hm Hf]].
  - left. split; [apply found_marks2; [lia|assumption|]; intros x; exact (Hm _ _ (Fm x))|].
    destruct Hf as [Hf|(l & Hl & Hf)].
    + left. apply found_a; [assumption|]. intros x y. exact (Hf _ _ _ (Ff x y)).
    + apply (b_found l); auto. 
  - assert (P : Permutation (mfiles d) fs).
    { apply perm_lookup; [assumption|apply fs_nodup|]. intros x y. exact (Hf _ _ _ (Ff x y)). }
    destruct (marked t d) eqn:Em.
    + left. split.
      * apply found_marks2; [lia|assumption|]. intros x. destruct (Hm _ _ (Fm x)) as [->|E].
        -- now rewrite Em, Z.eqb_refl.
        -- destruct (Z.eqb_spec x t) as [->|]; [now rewrite Em|]. exact E.
      * left. exists []. rewrite app_nil_r. auto.
    + right. split; [|assumption]. apply found_marks1; [assumption|]. intros x. destruct (Hm _ _ (Fm x)) as [->|E]; [|exact E].
      rewrite Em. symmetry. apply Z.eqb_neq. lia.
Qed.
Definition rtail (diffs : bool) : list (@pop D) :=
  [PDel t KSnap; PDel t KDiff] ++ (if diffs then [PDel t1 KDiff] else []).
Lemma regress_tail used diffs : regress_pops true (@rrest D t1 t used diffs) = rtail diffs ++ [PSync; PUnmark t].
Proof. destruct diffs; reflexivity. Qed.
Lemma both_of d : (markers d = [t; t1] \/ markers d = [t1; t]) -> mwithin (of_dir d) Mboth.
Proof.
  intros H x b. cbn. intros <-. unfold marked, Mboth. destruct H as [-> | ->]; cbn; destruct (x =? t), (x =? t1); reflexivity.
Qed.
Lemma a_of files : mid_a fs t1 t files -> NoDup (map nm files) -> forall x y, QA x y (lookup x y files).
Proof.
  intros (ex & P & F) ND x y. unfold QA. rewrite (lookup_perm _ _ x y ND P), lookup_app.
  destruct (lookup x y fs) eqn:E; [auto|]. destruct (lookup x y ex) as [r|] eqn:E1; [|auto].
  left. apply lookup_some in E1. rewrite Forall_forall in F. exact (F _ E1).
Qed.

Lemma regress_stage used d ops : NoDup (map nm (mfiles d)) -> mid deq fs h t1 t d -> regress_dops used d = Some ops ->
  always rG (regress_pops true ops) (of_dir d).
Proof using HI Hh Ht deq_ok.
  intros ND Hm E.
  pose proof (attempt_done deq deq_ok h d0 fs0 h0 t1 l0 t HI Hh Ht used d ops Hm E) as (Em & Pf & _).
  destruct (regress_form deq deq_ok h d0 fs0 h0 t1 l0 t HI Hh Ht used d Hm) as (pre & diffs & E' & Hc).
  rewrite E' in E. injection E as E.
  assert (Eops : regress_pops true ops = regress_pops true pre ++ rtail diffs ++ [PSync; PUnmark t]).
  { rewrite <- E, <- (regress_tail used). destruct Hc as [(-> & _)|(-> & _)]; reflexivity. }
  assert (Eops2 : regress_pops true ops = (regress_pops true pre ++ rtail diffs ++ [PSync]) ++ [PUnmark t]).
  { rewrite Eops, <- !app_assoc. reflexivity. }
  pose proof (both_of d (proj1 Hm)) as M0.
  (* before the marker is removed *)
  assert (A : always (fun p => mwithin p Mboth /\ (within p QA \/ exists l, lsorted l /\ within p (QB l))) (regress_pops true pre ++ rtail diffs) (of_dir d)).
  { apply always_app.
    - destruct Hc as [(-> & Ha & _)|(-> & Hb & _)].
      + apply always_nil. split; [assumption|]. left. intros x y v. cbn. intros <-. now apply a_of.
      + destruct Hb as (fs1 & h1 & l1 & l & E1 & E2 & Hl & P).
        unfold fs in E1. apply app_inj_tail in E1 as [<- E1]. injection E1 as E1.
        rewrite Hh in E2. apply app_inj_tail in E2 as [<- E2]. injection E2 as <-.
        eapply always_weaken with (G := fun p => mwithin p Mboth /\ within p (QB l)).
        * apply within_always; [constructor; [|repeat constructor]|repeat constructor|apply wf_of| |assumption].
          -- left. cbn [mf_time mf_kind mf_recs]. rewrite lookup_app, fs_lookup_old. reflexivity.
          -- intros x y v. cbn. intros <-. rewrite (lookup_perm _ _ x y ND P). fold (dif l) (new l). rewrite b_lookup. unfold QB.
             destruct (nameb t1 KSnap x y) eqn:En; [|auto]. apply nameb_eq in En. tauto.
        * intros q [A B]. split; [assumption|]. right. eauto.
    - assert (Hpre : within (run_pops (regress_pops true pre) (of_dir d)) QA).
      { destruct Hc as [(-> & Ha & _)|(-> & Hb & _)].
        - intros x y v. cbn. intros <-. now apply a_of.
        - destruct Hb as (fs1 & h1 & l1 & l & E1 & E2 & Hl & P).
          unfold fs in E1. apply app_inj_tail in E1 as [<- E1]. injection E1 as E1.
          rewrite Hh in E2. apply app_inj_tail in E2 as [<- E2]. injection E2 as <-.
          set (o := PReplace (mk_mf t1 KSnap (recs_of l0))).
          change (within (run_pop (run_pop (of_dir d) o) (PForce t1 KSnap)) QA).
          assert (Hc : cur (pfile (run_pop (of_dir d) o) t1 KSnap) = Some (recs_of l0)).
          { unfold o. cbn [run_pop on_name pfile mf_time mf_kind]. change ((t1 =? t1) && kind_eqb KSnap KSnap) with (nameb t1 KSnap t1 KSnap).
            now rewrite (proj2 (nameb_eq t1 KSnap t1 KSnap)). }
          eapply within_weaken; [apply force_exact with (Q := fun x y v => nameb t1 KSnap x y = false -> v = lookup x y (fs ++ [dif l; new l]))|].
          + apply within_step; [apply wf_of| |left; now apply nameb_eq]. intros x y v. cbn. intros <-. right. intros En.
            rewrite (lookup_perm _ _ x y ND P). fold (dif l) (new l). now rewrite b_lookup, En.
          + cbn beta. intros x y v. rewrite Hc. destruct (nameb t1 KSnap x y) eqn:En.
            * apply nameb_eq in En as [-> ->]. intros ->. right. now rewrite fs_lookup_old.
            * intros H. rewrite (H eq_refl), lookup_app. unfold QA, lo.
              destruct (lookup x y fs) eqn:Ef; [auto|]. rewrite !lookup_cons. cbn [dif new mf_time mf_kind].
              destruct (nameb x y t1 KDiff) eqn:E1'; [apply nameb_eq in E1' as [<- <-]; auto|].
              destruct (nameb x y t KSnap) eqn:E2'; [apply nameb_eq in E2' as [<- <-]; auto|]. auto. }
      eapply always_weaken with (G := fun p => mwithin p Mboth /\ within p QA).
      + apply within_always.
        * unfold rtail. destruct diffs; repeat constructor; left; (now left) || (right; auto).
        * unfold rtail. destruct diffs; repeat constructor.
        * apply wf_run, wf_of.
        * assumption.
        * apply mwithin_run; auto using wf_of. destruct Hc as [(-> & _)|(-> & _)]; repeat constructor.
      + intros q [H1 H2]. auto. }
  assert (S1 : sim (run_pops (regress_pops true ops) (of_dir d)) (run_dops ops d)).
  { apply sim_regress; [apply sim_of|]. intros x Hx. rewrite <- E in Hx.
    destruct Hc as [(-> & _)|(-> & _)]; unfold rrest in Hx; destruct diffs; cbn in Hx; intuition discriminate. }
  assert (W : wf (run_pops (regress_pops true pre ++ rtail diffs) (of_dir d))) by (apply wf_run, wf_of).
  assert (Sync : within (run_pops (regress_pops true pre ++ rtail diffs ++ [PSync]) (of_dir d)) (fun x y v => v = lookup x y fs)).
  { intros x y v Hv.
    assert (Ec : v = cur (pfile (run_pops (regress_pops true ops) (of_dir d)) x y)).
    { rewrite Eops2, run_app. cbn [run_pops fold_left]. rewrite app_assoc, run_app in Hv |- *. cbn [run_pops fold_left] in Hv |- *. cbn in Hv |- *. exact Hv. }
    rewrite Ec, (proj2 S1). apply lookup_perm; [|exact Pf].
    eapply Permutation_NoDup; [apply Permutation_map, Permutation_sym, Pf|apply fs_nodup]. }
  rewrite Eops2. apply always_app.
  - rewrite app_assoc. apply always_app.
    + eapply always_weaken; [exact A|]. intros q Hq. left. exact Hq.
    + assert (HA : forall q, (mwithin q Mboth /\ (within q QA \/ exists l, lsorted l /\ within q (QB l))) -> rG q) by (intros; now left).
      assert (HE : mwithin (run_pops (regress_pops true pre ++ rtail diffs) (of_dir d)) Mboth /\
        (within (run_pops (regress_pops true pre ++ rtail diffs) (of_dir d)) QA \/ exists l, lsorted l /\ within (run_pops (regress_pops true pre ++ rtail diffs) (of_dir d)) (QB l))).
      { pose proof (A (length (regress_pops true pre ++ rtail diffs))) as H. now rewrite firstn_all in H. }
      apply always_cons; [now apply HA|]. apply always_nil. apply HA. destruct HE as [H1 H2]. split.
      * apply mwithin_step; auto. exact I.
      * destruct H2 as [H2|(l & Hl & H2)]; [left|right; exists l; split; [assumption|]]; (apply within_step; auto; exact I).
  - apply always_cons.
    + right. split; [|exact Sync]. intros x b Hb.
      assert (H : Mboth x b).
      { revert x b Hb. apply mwithin_run; auto using wf_of. apply Forall_app. split; [destruct Hc as [(-> & _)|(-> & _)]; repeat constructor|].
        unfold rtail. destruct diffs; repeat constructor. }
      unfold Mboth, Mold in *. destruct (Z.eqb_spec x t); [auto|]. right. exact H.
    + apply always_nil. right.
      assert (Mo : mwithin (run_pops (regress_pops true pre ++ rtail diffs ++ [PSync]) (of_dir d)) Mold).
      { apply mwithin_run; auto using wf_of.
        - apply Forall_app. split; [destruct Hc as [(-> & _)|(-> & _)]; repeat constructor|].
          unfold rtail. destruct diffs; repeat constructor.
        - intros x b Hb. pose proof (M0 x b Hb) as H. unfold Mboth, Mold in *. destruct (Z.eqb_spec x t); [auto|]. right. exact H. }
      split; [apply mwithin_step; auto; [apply wf_run, wf_of|]; now left|]. apply within_step; auto; [apply wf_run, wf_of|exact I].
Qed.
End Stages.
End PD2.
