(** Lemmas about metadata files under power failures *)
From Coq Require Import List ZArith Bool Lia Sorting.Sorted Sorting.Permutation.
From Verif Require Import Base L_Base M_Iter L_Iter L_Tree L_Lookup L_Core M_MetaMgr L_MetaMgr L_MetaDir M_PowerDir.
From Verif Require M_Power.
Import List ListNotations.
Local Open Scope Z_scope.

Section PD.
Context {D : Type}.
Variable deq : D -> D -> bool.
Hypothesis deq_ok : forall x y, deq x y = true <-> x = y.
Notation mfile := (@mfile D).
Notation ddir := (@ddir D).
Notation pdir := (@pdir D).
Notation recs := (list (idx * option D)).
Notation cur := M_Power.cur.
Notation poss := M_Power.poss.

Definition nm (f : mfile) : Z * mkind := (mf_time f, mf_kind f).
Definition nameb (t : Z) (k : mkind) (x : Z) (y : mkind) : bool := (x =? t) && kind_eqb y k.
Lemma nameb_eq t k x y : nameb t k x y = true <-> x = t /\ y = k.
Proof. unfold nameb. rewrite andb_true_iff, Z.eqb_eq. destruct y, k; cbn; intuition congruence. Qed.
Lemma same_name_nameb t k (f : mfile) : same_name t k f = nameb t k (mf_time f) (mf_kind f).
Proof. unfold same_name, nameb. destruct k, (mf_kind f); reflexivity. Qed.
Lemma same_name_eq t k (f : mfile) : same_name t k f = true <-> nm f = (t, k).
Proof. rewrite same_name_nameb, nameb_eq. unfold nm. intuition congruence. Qed.
Lemma nameb_sym t k x y : nameb t k x y = nameb x y t k.
Proof. unfold nameb. rewrite Z.eqb_sym. destruct k, y; reflexivity. Qed.

(** ** Lists of files and lookups *)
Lemma lookup_some t k (fs : list mfile) r : lookup t k fs = Some r -> In (mk_mf t k r) fs.
Proof.
  unfold lookup. destruct (find _ fs) as [f|] eqn:E; cbn; [|discriminate]. intros [= <-].
  apply find_some in E as [Hf Hn]. apply same_name_eq in Hn. destruct f as [x y r0]. unfold nm in Hn. cbn in *.
  injection Hn as -> ->. exact Hf.
Qed.
Lemma lookup_none t k (fs : list mfile) : lookup t k fs = None <-> free t k fs.
Proof.
  unfold lookup, free. split.
  - destruct (find _ fs) eqn:E; [discriminate|]. intros _ f Hf. exact (find_none _ _ E f Hf).
  - intros H. destruct (find _ fs) as [f|] eqn:E; [|reflexivity]. apply find_some in E as [Hf Hn].
    rewrite H in Hn by assumption. discriminate.
Qed.
Lemma lookup_in (fs : list mfile) f : NoDup (map nm fs) -> In f fs -> lookup (mf_time f) (mf_kind f) fs = Some (mf_recs f).
Proof.
  unfold lookup. induction fs as [|g fs IH]; intros ND Hf; [destruct Hf|]. inversion ND as [|? ? Hn ND']; subst.
  cbn. destruct (same_name (mf_time f) (mf_kind f) g) eqn:E.
  - destruct Hf as [<-|Hf]; [reflexivity|]. apply same_name_eq in E. exfalso. apply Hn. unfold nm at 1 in E.
    unfold nm at 1. rewrite E. now apply (in_map nm).
  - destruct Hf as [<-|Hf]; [rewrite (proj2 (same_name_eq _ _ g) eq_refl) in E; discriminate|]. now apply IH.
Qed.
Lemma lookup_iff (fs : list mfile) t k r : NoDup (map nm fs) -> lookup t k fs = Some r <-> In (mk_mf t k r) fs.
Proof. intros ND. split; [apply lookup_some|]. intros H. exact (lookup_in fs _ ND H). Qed.
Lemma perm_lookup (a b : list mfile) : NoDup (map nm a) -> NoDup (map nm b) ->
  (forall t k, lookup t k a = lookup t k b) -> Permutation a b.
Proof.
  intros Na Nb H. apply NoDup_Permutation.
  - exact (NoDup_map_inv _ _ Na).
  - exact (NoDup_map_inv _ _ Nb).
  - intros [t k r]. rewrite <- (lookup_iff a), <- (lookup_iff b) by assumption. now rewrite H.
Qed.
Lemma lookup_perm (a b : list mfile) t k : NoDup (map nm a) -> Permutation a b -> lookup t k a = lookup t k b.
Proof.
  intros Na P. assert (Nb : NoDup (map nm b)) by (eapply Permutation_NoDup; [apply Permutation_map, P|exact Na]).
  destruct (lookup t k b) as [r|] eqn:E.
  - apply lookup_iff; [assumption|]. apply (Permutation_in _ (Permutation_sym P)). now apply lookup_some.
  - apply lookup_none. apply lookup_none in E. intros f Hf. apply E. now apply (Permutation_in _ P).
Qed.
Lemma find_app' {A} (p : A -> bool) a b : find p (a ++ b) = match find p a with Some x => Some x | None => find p b end.
Proof. induction a as [|x a IH]; cbn; [reflexivity|]. destruct (p x); auto. Qed.
Lemma lookup_app t k (a b : list mfile) : lookup t k (a ++ b) = match lookup t k a with Some x => Some x | None => lookup t k b end.
Proof. unfold lookup. rewrite find_app'. now destruct (find _ a). Qed.
Lemma lookup_cons t k (f : mfile) a : lookup t k (f :: a) = if nameb t k (mf_time f) (mf_kind f) then Some (mf_recs f) else lookup t k a.
Proof. unfold lookup. cbn. rewrite same_name_nameb. now destruct (nameb _ _ _ _). Qed.
Lemma lookup_filter t k (p : mfile -> bool) fs :
  (forall f, nm f = (t, k) -> p f = true) -> lookup t k (filter p fs) = lookup t k fs.
Proof.
  intros H. unfold lookup. induction fs as [|f fs IH]; cbn; [reflexivity|].
  destruct (same_name t k f) eqn:E.
  - apply same_name_eq in E. rewrite (H f E). cbn. now rewrite (proj2 (same_name_eq t k f) E).
  - destruct (p f); cbn; [rewrite E|]; exact IH.
Qed.
Lemma lookup_filter_none t k (p : mfile -> bool) fs :
  (forall f, nm f = (t, k) -> p f = false) -> lookup t k (filter p fs) = None.
Proof.
  intros H. apply lookup_none. intros f Hf. apply filter_In in Hf as [_ Hp].
  destruct (same_name t k f) eqn:E; [|reflexivity]. apply same_name_eq in E. rewrite (H f E) in Hp. discriminate.
Qed.
Lemma lookup_del t k (fs : list mfile) x y : lookup x y (del_file t k fs) = if nameb t k x y then None else lookup x y fs.
Proof.
  unfold del_file. destruct (nameb t k x y) eqn:E.
  - apply nameb_eq in E as [-> ->]. apply lookup_filter_none. intros f Hf. now rewrite (proj2 (same_name_eq t k f) Hf).
  - apply lookup_filter. intros f Hf. destruct (same_name t k f) eqn:Es; [|reflexivity].
    apply same_name_eq in Es. rewrite Es in Hf. injection Hf as -> ->. rewrite (proj2 (nameb_eq x y x y)) in E by auto. discriminate.
Qed.
Lemma lookup_put (f : mfile) fs x y : lookup x y (put_file f fs) = if nameb (mf_time f) (mf_kind f) x y then Some (mf_recs f) else lookup x y fs.
Proof.
  unfold put_file. rewrite lookup_app, lookup_del, lookup_cons, nameb_sym.
  destruct (nameb _ _ _ _); [reflexivity|]. now destruct (lookup x y fs).
Qed.
Lemma nodup_filter (p : mfile -> bool) fs : NoDup (map nm fs) -> NoDup (map nm (filter p fs)).
Proof.
  induction fs as [|f fs IH]; cbn; intros ND; [constructor|]. inversion ND as [|? ? Hn ND']; subst.
  destruct (p f); cbn; [constructor|]; auto. intros Hi. apply Hn. apply in_map_iff in Hi as (g & Eg & Hg).
  rewrite <- Eg. apply in_map. now apply filter_In in Hg as [Hg _].
Qed.
Lemma nodup_app (a b : list mfile) : NoDup (map nm a) -> NoDup (map nm b) ->
  (forall f, In f b -> free (mf_time f) (mf_kind f) a) -> NoDup (map nm (a ++ b)).
Proof.
  intros Na Nb H. rewrite map_app. induction a as [|g a IH]; cbn; [exact Nb|].
  inversion Na as [|? ? Hn Na']; subst. constructor.
  - rewrite in_app_iff. intros [Hi|Hi]; [now apply Hn|]. apply in_map_iff in Hi as (f & Ef & Hf).
    specialize (H f Hf g (or_introl eq_refl)). rewrite (proj2 (same_name_eq _ _ g)) in H; [discriminate|]. now rewrite <- Ef.
  - apply IH; [assumption|]. intros f Hf g' Hg'. apply (H f Hf). now right.
Qed.
Lemma nodup_put f fs : NoDup (map nm fs) -> NoDup (map nm (put_file f fs)).
Proof.
  intros ND. unfold put_file. apply nodup_app; [now apply nodup_filter|repeat constructor; intros []|].
  intros g [<-|[]]. apply lookup_none. rewrite lookup_del. now rewrite (proj2 (nameb_eq _ _ _ _)).
Qed.

(** ** Operations *)
Definition wf (p : pdir) : Prop := (forall t, poss (pmark p t) (cur (pmark p t))) /\ (forall t k, poss (pfile p t k) (cur (pfile p t k))).
Lemma wf_of (d : ddir) : wf (of_dir d).
Proof. split; reflexivity. Qed.
Lemma wf_run1 (p : pdir) o : wf p -> wf (run_pop p o).
Proof.
  intros [A B]. destruct o; split; cbn; intros; auto;
    try (destruct (_ =? _); cbn; auto; fail);
    try (destruct (_ && _); cbn; auto; fail); reflexivity.
Qed.
Lemma wf_run l : forall p, wf p -> wf (run_pops l p).
Proof. unfold run_pops. induction l as [|o l IH]; cbn; intros p H; [assumption|]. apply IH. now apply wf_run1. Qed.
Lemma run_app a b (p : pdir) : run_pops (a ++ b) p = run_pops b (run_pops a p).
Proof. unfold run_pops. apply fold_left_app. Qed.

Definition sim (p : pdir) (d : ddir) : Prop :=
  (forall t, cur (pmark p t) = marked t d) /\ (forall t k, cur (pfile p t k) = lookup t k (mfiles d)).
Lemma sim_of d : sim (of_dir d) d.
Proof. split; reflexivity. Qed.
Lemma existsb_filter_ne t l x : existsb (Z.eqb x) (filter (fun y => negb (y =? t)) l) = negb (x =? t) && existsb (Z.eqb x) l.
Proof.
  induction l as [|y l IH]; cbn; [now rewrite andb_false_r|]. destruct (Z.eqb_spec y t) as [->|N]; cbn.
  - rewrite IH. destruct (Z.eqb_spec x t); reflexivity.
  - rewrite IH. destruct (Z.eqb_spec x y) as [->|]; cbn; [|reflexivity]. destruct (Z.eqb_spec y t); [contradiction|reflexivity].
Qed.
Lemma force_sim force p d l : sim p d ->
  (forall o, In o l -> match o with PForceMark _ | PForce _ _ | PSync => True | _ => False end) ->
  sim (run_pops (forced force l) p) d.
Proof.
  intros Hs. unfold forced. destruct force; [|auto]. revert p Hs. induction l as [|o l IH]; intros p [A B] H; [now split|].
  cbn. apply IH; [|intros; apply H; now right]. specialize (H o (or_introl eq_refl)).
  destruct o; try destruct H; split; cbn; intros; auto; try (destruct (_ && _); cbn; auto; fail); try (destruct (_ =? _); cbn; auto; fail).
Qed.
Lemma sim_touch p d t : sim p d -> sim (run_pop p (PTouch t)) (run_dop (DTouch t) d).
Proof.
  intros [A B]. split; cbn; auto. intros x. unfold marked. cbn. rewrite existsb_filter_ne.
  destruct (Z.eqb_spec x t); cbn; [reflexivity|]. apply A.
Qed.
Lemma sim_unmark p d t : sim p d -> sim (run_pop p (PUnmark t)) (run_dop (DUnmark t) d).
Proof.
  intros [A B]. split; cbn; auto. intros x. unfold marked. cbn. rewrite existsb_filter_ne.
  destruct (Z.eqb_spec x t); cbn; [reflexivity|]. apply A.
Qed.
Lemma sim_del p d t k : sim p d -> sim (run_pop p (PDel t k)) (run_dop (DDel t k) d).
Proof.
  intros [A B]. split; cbn; auto. intros x y. rewrite lookup_del. fold (nameb t k x y).
  destruct (nameb t k x y); cbn; auto.
Qed.
Lemma sim_write p d f : sim p d -> sim (run_pop p (PWrite f)) (run_dop (DPut f) d).
Proof.
  intros [A B]. split; cbn; auto. intros x y. rewrite lookup_put. fold (nameb (mf_time f) (mf_kind f) x y).
  destruct (nameb _ _ x y); cbn; auto.
Qed.
Lemma sim_replace p d f : sim p d -> sim (run_pop p (PReplace f)) (run_dop (DPut f) d).
Proof.
  intros [A B]. split; cbn; auto. intros x y. rewrite lookup_put. fold (nameb (mf_time f) (mf_kind f) x y).
  destruct (nameb _ _ x y); cbn; auto.
Qed.
Lemma sim_session force l : forall p d, sim p d -> sim (run_pops (session_pops force l) p) (run_dops l d).
Proof.
  induction l as [|o l IH]; intros p d Hs; cbn [session_pops run_dops]; [exact Hs|]. rewrite run_app. apply IH.
  destruct o; try exact Hs.
  - cbn [run_pops fold_left]. apply force_sim; [now apply sim_touch|]. intros ? [<-|[]]; exact I.
  - rewrite run_app. cbn [run_pops fold_left]. apply sim_unmark. apply force_sim; [assumption|]. intros ? [<-|[]]; exact I.
  - change (sim (run_pops (if last_write f l then forced force [PForce (mf_time f) (mf_kind f)] else []) (run_pop p (PWrite f))) (run_dop (DPut f) d)).
    destruct (last_write f l); [|now apply sim_write]. apply force_sim; [now apply sim_write|]. intros ? [<-|[]]; exact I.
  - now apply sim_del.
Qed.
Lemma sim_regress force l : forall p d, sim p d ->
  (forall t, ~ In (DTouch t) l) -> sim (run_pops (regress_pops force l) p) (run_dops l d).
Proof.
  induction l as [|o l IH]; intros p d Hs Hn; cbn [regress_pops run_dops]; [exact Hs|]. rewrite run_app. apply IH; [|intros t Ht; apply (Hn t); now right].
  destruct o; try exact Hs.
  - exfalso. apply (Hn t). now left.
  - rewrite run_app. cbn [run_pops fold_left]. apply sim_unmark. apply force_sim; [assumption|]. intros ? [<-|[]]; exact I.
  - destruct force; [|now apply sim_write].
    change (sim (run_pops (forced true [PForce (mf_time f) (mf_kind f)]) (run_pop p (PReplace f))) (run_dop (DPut f) d)).
    apply force_sim; [now apply sim_replace|]. intros ? [<-|[]]; exact I.
  - now apply sim_del.
Qed.

(** ** Prefixes *)
Definition always (G : pdir -> Prop) (l : list pop) (p : pdir) : Prop := forall k, G (run_pops (firstn k l) p).
Lemma always_app G a b p : always G a p -> always G b (run_pops a p) -> always G (a ++ b) p.
Proof.
  intros A B k. rewrite firstn_app, run_app. destruct (Nat.le_gt_cases k (length a)).
  - replace (k - length a)%nat with 0%nat by lia. cbn [firstn]. apply A.
  - rewrite (firstn_all2 a) by lia. apply B.
Qed.
Lemma always_cons (G : pdir -> Prop) o l p : G p -> always G l (run_pop p o) -> always G (o :: l) p.
Proof. intros A B [|k]; [exact A|]. apply (B k). Qed.
Lemma always_nil (G : pdir -> Prop) p : G p -> always G [] p.
Proof. intros A [|k]; exact A. Qed.
End PD.
