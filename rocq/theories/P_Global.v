(** * C44, C45: the whole repository through its life *)
From Coq Require Import List ZArith Bool Ascii Lia Sorting.Permutation Sorting.Sorted.
From Verif Require Import Base L_Base M_Core L_Core P_Core M_Crash L_Crash M_Iter L_Iter L_Tree L_Lookup P_Iter
  M_MetaMgr L_MetaMgr L_MetaDir P_MetaMgr M_Global S_Global L_Global L_First.
Import List ListNotations.
Local Open Scope Z_scope.

Lemma forallb_map {A B} (f : B -> bool) (g : A -> B) l : forallb f (map g l) = forallb (fun x => f (g x)) l.
Proof. induction l as [|x l IH]; cbn; [reflexivity|]. now rewrite IH. Qed.

Section Proofs.
Context {attr : Type}.
Variable delta : bytes -> bytes -> bytes.
Variable patch : bytes -> bytes -> option bytes.
Variable sha1 : attr -> bytes -> option bytes.
Variables same loose : attr -> attr -> bool.
Variable deq : meta attr -> meta attr -> bool.
Hypothesis deq_ok : forall x y, deq x y = true <-> x = y.
Notation grun := (grun delta patch sha1 same loose deq).
Notation newf := (newf sha1 same).
Notation hrec := (list (Z * (idx -> node attr))).

(** the states recorded, newest first *)
Definition grec_step (recs : hrec) (e : @gevent attr) : hrec :=
  match e with
  | GSession t src o _ => (t, newf recs src o) :: recs
  | GCrash _ _ _ _ _ _ _ rms _ _ _ => without (map fst rms) recs
  | GRemove rt _ => keep_recs rt recs
  | GForced _ _ _ => tl recs
  | GFirst m0 fa tries t src o _ =>
      (t, firstf sha1 same fa (fun p => tried delta sha1 same fa tries p (node_at m0 p)) src o) :: recs
  end.
Definition grecs (evs : list (@gevent attr)) : hrec := fold_left grec_step evs [].

Lemma grecs_snoc evs e : grecs (evs ++ [e]) = grec_step (grecs evs) e.
Proof using. unfold grecs. now rewrite fold_left_app. Qed.
Lemma held_snoc evs (e : @gevent attr) : held (evs ++ [e]) = held_step (held evs) e.
Proof using. unfold held. now rewrite fold_left_app. Qed.

Lemma version_mono (evs evs' : list (@gevent attr)) p n :
  (forall e, In e evs -> In e evs') -> version evs p n -> version evs' p n.
Proof using. intros H (e & n0 & A & B & C). exists e, n0. auto. Qed.
(** a regular file of some version, or empty *)
Definition regv (evs : list (@gevent attr)) (p : idx) (n : node attr) : Prop :=
  match n with Reg c a => c = [] \/ version evs p (Reg c a) | _ => True end.
Lemma regv_mono (evs evs' : list (@gevent attr)) p n :
  (forall e, In e evs -> In e evs') -> regv evs p n -> regv evs' p n.
Proof using. intros H. unfold regv. destruct n; auto. intros [A|A]; [now left|right; eapply version_mono; eauto]. Qed.
Lemma brings_regv (evs : list (@gevent attr)) e p src : In e evs -> In src (trees_of e) -> regv evs p (node_at src p).
Proof using.
  intros He Hs. unfold regv. destruct (node_at src p) eqn:E; auto. right. exists e, (node_at src p). repeat split; auto.
  exists src. auto.
Qed.
Lemma regv_absent evs p : regv evs p Absent.
Proof using. exact I. Qed.

Lemma ghead_from (recs : hrec) (Q : idx -> node attr -> Prop) p : (forall q, Q q Absent) ->
  (forall t f, In (t, f) recs -> forall p, Q p (f p)) -> Q p (ghead recs p).
Proof using.
  intros Ha H. destruct recs as [|[t f] recs]; [apply Ha|]. exact (H t f (or_introl eq_refl) p).
Qed.

Definition found_none (evs : list (@gevent attr)) : Prop :=
  forall m0 fa tries t src o zd, In (GFirst m0 fa tries t src o zd) evs -> forall a c, sha1 (fa a) c = None.

Lemma recorded_regv evs p v s o : regv evs p v -> regv evs p s -> regv evs p (recorded sha1 same v s o).
Proof using.
  intros Hv Hs. unfold recorded. destruct (meta_same same s (meta_of sha1 v)).
  - destruct o; try exact Hv. destruct s; try exact Hv. exact I.
  - destruct o; try exact Hs; [exact Hv|]. destruct s; try exact Hs. exact I.
Qed.

Lemma tried_regv evs m0 fa tries t src o zd p : In (GFirst m0 fa tries t src o zd) evs -> found_none evs ->
  regv evs p (tried delta sha1 same fa tries p (node_at m0 p)) /\
  regv evs p (as_found fa (tried delta sha1 same fa tries p (node_at m0 p))).
Proof using.
  intros He Hn.
  set (ok := fun p n => regv evs p n /\ regv evs p (as_found fa n)).
  assert (Hsrc : forall s, In s (m0 :: src :: map y_src tries) -> ok p (node_at s p)).
  { intros s Hs. split; [eapply brings_regv; [exact He|exact Hs]|].
    rewrite attr_found. unfold regv. destruct (node_at s p) eqn:E; auto. right.
    exists (GFirst m0 fa tries t src o zd), (node_at s p). split; [exact He|]. split; [exists s; auto|]. right.
    cbn. rewrite E. reflexivity. }
  apply (tried_ok delta sha1 same fa (Hn _ _ _ _ _ _ _ He) ok).
  - intros q [|c a|a|d a] E; try discriminate; split; exact I.
  - intros q a. split; [|rewrite attr_found]; now left.
  - intros y Hy. apply Hsrc. right. right. now apply in_map.
  - apply Hsrc. now left.
Qed.

Lemma grecs_from evs : found_none evs -> forall t f, In (t, f) (grecs evs) -> forall p, regv evs p (f p).
Proof using.
  induction evs as [|e evs IH] using rev_ind; [intros _ t f []|]. intros Hn. rewrite grecs_snoc.
  assert (Hin : forall x, In x evs -> In x (evs ++ [e])) by (intros x Hx; apply in_app_iff; now left).
  assert (He : In e (evs ++ [e])) by (apply in_app_iff; right; now left).
  assert (IH' : forall t f, In (t, f) (grecs evs) -> forall p, regv (evs ++ [e]) p (f p)).
  { intros t f H p. eapply regv_mono; [exact Hin|]. eapply IH; [|exact H].
    intros m0 fa tries t0 src o zd H0. eapply Hn. apply Hin. exact H0. }
  destruct e as [t src o zd|t src o z zd kd kp rms used att zl|rt u|used att zl|m0 fa tries t src o zd]; cbn [grec_step].
  - intros t' f [E|H] p; [|eauto]. injection E as <- <-. unfold L_Global.newf. apply recorded_regv.
    + apply ghead_from; [intros; exact I|exact IH'].
    + eapply brings_regv; [exact He|]. now left.
  - intros t' f H. apply filter_In in H as [H _]. eauto.
  - intros t f H. apply filter_In in H as [H _]. eauto.
  - intros t f H. destruct (grecs evs) as [|x recs]; [destruct H|]. cbn in H. eapply IH'. right. exact H.
  - intros t' f [E|H] p; [|eauto]. injection E as <- <-. unfold firstf. apply recorded_regv.
    + now apply (tried_regv _ m0 fa tries t src o zd).
    + eapply brings_regv; [exact He|]. right. now left.
Qed.

Section Inv.
Variable EVS : list (@gevent attr).
Hypothesis HF : fine delta patch sha1 same loose EVS.
Notation P := (contents EVS).
Notation GInv := (GInv patch sha1 loose deq P).

Lemma occ_nil p : P p [].
Proof using. now left. Qed.

Lemma regv_okn p n : regv EVS p n -> okn (P p) n.
Proof using. unfold okn, regv. destruct n; auto. intros [->|A]; [now left|right; eauto]. Qed.
Lemma src_okn e src p : In e EVS -> In src (trees_of e) -> okn (P p) (node_at src p).
Proof using. intros H E. apply regv_okn. eapply brings_regv; eauto. Qed.

Lemma from_shows v e src p : regv EVS p v -> In e EVS -> In src (trees_of e) ->
  shows loose (P p) v (node_at src p).
Proof using HF.
  intros Hv He Es. pose proof (src_okn e src p He Es) as Hk. pose proof (brings_regv EVS e p src He Es) as Hr.
  unfold shows. destruct v as [|c a| |]; auto. destruct (node_at src p) as [|c' b| |] eqn:En; auto.
  intros Hl. split; [exact Hk|]. intros Hlo. cbn in Hv, Hr.
  destruct Hv as [->|Hv]; [now destruct c'|]. destruct Hr as [->|Hr]; [now destruct c|].
  symmetry. eapply (f_loose _ _ _ _ _ _ HF p); eauto.
Qed.

Lemma forced_shows p v0 v1 : regv EVS p v0 -> regv EVS p v1 ->
  (exists used att zl, In (GForced used att zl) EVS) ->
  forall c0 a0 c1 a1 b, v0 = Reg c0 a0 -> v1 = Reg c1 a1 -> length c1 = length c0 ->
     b = a1 \/ loose a1 b = true -> loose a0 b = true -> c1 = c0.
Proof using HF.
  intros H0 H1 Hf c0 a0 c1 a1 b -> -> El Hb Hl.
  cbn in H0, H1. destruct H0 as [->|H0]; [now destruct c1|]. destruct H1 as [->|H1]; [now destruct c0|].
  destruct Hb as [-> |Hb].
  - symmetry. eapply (f_loose _ _ _ _ _ _ HF p); eauto.
  - symmetry. eapply (f_forced _ _ _ _ _ _ HF Hf p c0 a0 c1 a1 b); eauto.
Qed.

Lemma fine_found : found_none EVS.
Proof using HF. intros m0 fa tries t src o zd H a c. now apply (f_found _ _ _ _ _ _ HF _ _ _ _ _ _ _ H). Qed.
Lemma found_sub evs : (forall e, In e evs -> In e EVS) -> found_none evs.
Proof using HF. intros H m0 fa tries t src o zd He. eapply fine_found. apply H. exact He. Qed.
Lemma grecs_regv evs t f p : (forall e, In e evs -> In e EVS) -> In (t, f) (grecs evs) -> regv EVS p (f p).
Proof using HF. intros H Hf. eapply regv_mono; [exact H|]. eapply grecs_from; [now apply found_sub|exact Hf]. Qed.

Lemma run_ginv evs r : grun evs r -> (forall e, In e evs -> In e EVS) -> GInv (grecs evs) r.
Proof using HF deq_ok.
  intros H. induction H as [|evs r e r' H IH Hw Hs|evs r r' H IH Hl]; intros Hin.
  - apply ginv_empty.
  - assert (Hin' : forall x, In x evs -> In x EVS) by (intros x Hx; apply Hin, in_app_iff; now left).
    assert (HeE : In e EVS) by (apply Hin, in_app_iff; right; now left).
    specialize (IH Hin'). rewrite grecs_snoc.
    destruct e as [t src o zd|t src o z zd kd kp rms used att zl|rt u|used att zl|m0 fa tries t src o zd]; cbn [grec_step gstep] in *.
    + eapply session_ginv with (delta := delta) (same := same); eauto using occ_nil.
      * intros p. apply (f_librsync _ _ _ _ _ _ HF p).
      * intros p. apply (f_sha1 _ _ _ _ _ _ HF p).
      * exact (Forall_inv Hw).
      * intros p. pose proof (f_out _ _ _ _ _ _ HF t src o p (or_introl (ex_intro _ zd HeE))) as Ho. split.
        -- unfold good. destruct (o p); auto.
        -- intros a E. rewrite E in Ho. exact Ho.
      * intros p. eapply src_okn; eauto. now left.
    + destruct Hs as (rc & Ec & Hrt & Hn & Hr). destruct (grecs evs) as [|[t1 f1] recs0] eqn:Eg.
      { destruct IH as [HD _]. unfold gcrash in Ec. rewrite HD in Ec. unfold backup_start in Ec. cbn in Ec.
        destruct (t <=? 0); discriminate. }
      assert (Hf1 : forall p, regv EVS p (f1 p)).
      { intros p. apply (grecs_regv evs t1 f1 p Hin'). rewrite Eg. now left. }
      destruct (crash_mid delta patch sha1 same loose deq deq_ok P occ_nil (f_librsync _ _ _ _ _ _ HF) (f_sha1 _ _ _ _ _ _ HF) (f_unhashed _ _ _ _ _ _ HF)
        recs0 t1 f1 r t src o z zd kd kp rc IH (Forall_inv Hw)) as (h & fs0 & h0 & l0 & HR & HI & Hh & Hm & Ht & Hmd & HF2 & HG); auto.
      { intros p. eapply src_okn; eauto. now left. }
      { intros p. eapply from_shows; eauto. now left. }
      assert (Hrt' : forall rt b, In (rt, b) rms -> rt <= t1).
      { intros rt b Hb. specialize (Hrt rt b Hb). unfold mirror_time in Hrt. now rewrite Hm in Hrt. }
      destruct (removals_gmid patch sha1 loose deq P rms recs0 t1 f1 t h (r_data r) fs0 h0 l0 rc HR HI Hh Hm Ht HF2 HG Hrt')
        as (h' & d' & fs' & h1 & HR' & HI' & Hh' & Hm' & HF' & HG').
      rewrite without_hd by (intros rt Hx; apply in_map_iff in Hx as ([y b] & <- & Hx); exact (Hrt' y b Hx)).
      eapply (regresses_ok delta patch sha1 same loose deq deq_ok P occ_nil (f_librsync _ _ _ _ _ _ HF) (f_sha1 _ _ _ _ _ _ HF) (f_unhashed _ _ _ _ _ _ HF)
        _ t1 f1 t h' d' fs' h1 l0 HR' HI' Hh' Hm' Ht Hmd HF' used zl att _ HG'). exact Hr.
    + destruct Hs as [Hrt ->]. destruct (grecs evs) as [|x recs0] eqn:Eg.
      { destruct IH as [HD HP]. split; [cbn; now rewrite HD|]. intros p.
        exact (remove_pinv patch sha1 loose P rt [] p (r_path r p) (HP p) I). }
      apply remove_ginv; auto. discriminate.
    + destruct Hs as (rc & Ec & Hr). destruct (grecs evs) as [|[t1 f1] [|[t0 f0] r0]] eqn:Eg; cbn [tl].
      { destruct IH as [HD _]. unfold gforce, force_regress in Ec. rewrite HD in Ec. discriminate. }
      { rewrite (forced_single patch sha1 loose deq deq_ok P t1 f1 r IH) in Ec. discriminate. }
      destruct (forced_gmid patch sha1 loose deq deq_ok P t1 f1 t0 f0 r0 r IH) as (rc' & h & d0 & fs0 & h0 & l0 & Ec' & HR & HI & Hh & Hm & Ht & Hmd & HF2 & HG).
      { intros p. refine (forced_shows p (f0 p) (f1 p) _ _ _); [| |now exists used, att, zl].
        - apply (grecs_regv evs t0 f0 p Hin'). rewrite Eg. right. now left.
        - apply (grecs_regv evs t1 f1 p Hin'). rewrite Eg. now left. }
      rewrite Ec in Ec'. injection Ec' as <-.
      eapply (regresses_ok delta patch sha1 same loose deq deq_ok P occ_nil (f_librsync _ _ _ _ _ _ HF) (f_sha1 _ _ _ _ _ _ HF) (f_unhashed _ _ _ _ _ _ HF)
        _ t0 f0 t1 h d0 fs0 h0 l0 HR HI Hh Hm Ht Hmd HF2 used zl att _ HG). exact Hr.
    + destruct Hs as (Hd & _ & rc & found & Hc & Hsc & Hf).
      destruct (grecs evs) as [|[t1 f1] recs0].
      2: { destruct IH as [HD _]. destruct (dinv_last sha1 deq deq_ok _ _ _ _ HD) as (h & h0 & l0 & _ & _ & Hm & _).
           rewrite Hd in Hm. discriminate. }
      destruct (first_crashes_ok delta sha1 same deq fa tries _ rc (plain_dir_plain m0) Hc) as [Hpl Hmr]. cbn in Hmr.
      assert (HO : forall p, firstf sha1 same fa (fun p => fst (r_path rc p)) src o p =
                             firstf sha1 same fa (fun p => tried delta sha1 same fa tries p (node_at m0 p)) src o p).
      { intros p. unfold firstf. now rewrite Hmr. }
      eapply (ginv_ext1 patch sha1 loose deq P t _ _ r' HO); eapply (gfirst_ginv delta patch sha1 same loose deq P occ_nil fa); eauto.
      * intros a. now apply (f_found _ _ _ _ _ _ HF _ _ _ _ _ _ _ HeE).
      * intros a c. now apply (f_found _ _ _ _ _ _ HF _ _ _ _ _ _ _ HeE).
      * exact (Forall_inv (Forall_inv_tail Hw)).
      * intros p. apply regv_okn. rewrite Hmr. now apply (tried_regv EVS m0 fa tries t src o zd p HeE fine_found).
      * intros p. eapply src_okn; eauto. right. now left.
      * intros p. pose proof (f_out _ _ _ _ _ _ HF t src o p (or_intror (ex_intro _ m0 (ex_intro _ fa (ex_intro _ tries (ex_intro _ zd HeE)))))) as Ho. split.
        -- unfold good. destruct (o p); auto.
        -- intros a E. rewrite E in Ho. exact Ho.
  - specialize (IH Hin). destruct (grecs evs) as [|x recs0] eqn:Eg.
    + destruct IH as [HD HP], Hl as (Hm & Hf & Ho & Hu & Hp). split.
      * rewrite HD in *. destruct (r_data r') as [m f o u]. cbn in *. apply Permutation_nil in Hf. now subst.
      * intros p. destruct (HP p) as (l & HPl & HI). destruct (Hp p) as [E1 E2]. exists l. rewrite E1. split; [|exact HI].
        now rewrite <- E2.
    + eapply relist_ginv; eauto. discriminate.
Qed.

(** what is recorded for an updated path is the source *)
Lemma recorded_same p v e src o : regv EVS p v -> In e EVS -> In src (trees_of e) ->
  updated o -> same_state same (node_at src p) (recorded sha1 same v (node_at src p) o).
Proof using HF.
  intros Hv He Es Ho. unfold recorded.
  assert (Hrefl : forall n : node attr, same_state same n n) by (intros []; cbn; auto).
  destruct (meta_same same (node_at src p) (meta_of sha1 v)) eqn:Em.
  - assert (Hx : same_state same (node_at src p) v).
    { pose proof (brings_regv EVS e p src He Es) as Hr.
      destruct (node_at src p) as [|c a|a|d a] eqn:En, v as [|c' b|b|d' b]; cbn in Em; try discriminate; cbn; auto.
      - cbn in Hv, Hr. apply andb_true_iff in Em as [El Ea]. apply Nat.eqb_eq in El. split; auto.
        destruct Hv as [->|Hv]; [now destruct c|]. destruct Hr as [->|Hr]; [now destruct c'|].
        eapply (f_same _ _ _ _ _ _ HF p); eauto.
      - apply andb_true_iff in Em as [El Ea]. split; auto. now apply beq_true. }
    destruct o, (node_at src p); try exact Hx; try (destruct Ho); apply Hrefl.
  - destruct o; try (destruct Ho); apply Hrefl.
Qed.

Lemma held_recs evs : (forall e, In e evs -> In e EVS) ->
  Forall2 (fun x y => fst (fst x) = fst y /\
     forall p, updated (snd x p) -> same_state same (node_at (snd (fst x)) p) (snd y p)) (held evs) (rev (grecs evs)).
Proof using HF.
  induction evs as [|e evs IH] using rev_ind; intros Hin; [constructor|].
  assert (Hin' : forall x, In x evs -> In x EVS) by (intros x Hx; apply Hin, in_app_iff; now left).
  assert (HeE : In e EVS) by (apply Hin, in_app_iff; right; now left).
  specialize (IH Hin'). rewrite held_snoc, grecs_snoc.
  destruct e as [t src o zd|t src o z zd kd kp rms used att zl|rt u|used att zl|m0 fa tries t src o zd]; cbn [grec_step held_step].
  - cbn [rev]. apply Forall2_app; [exact IH|]. constructor; [|constructor]. split; [reflexivity|]. cbn [fst snd].
    intros p Hp. unfold L_Global.newf. refine (recorded_same p _ (GSession t src o zd) src (o p) _ HeE (or_introl eq_refl) Hp).
    apply (ghead_from _ (regv EVS)); [intros; exact I|]. intros t' f' H' q. eapply grecs_regv; eauto.
  - unfold without. rewrite <- keep_rev. revert IH. generalize (rev (grecs evs)). generalize (held evs). clear.
    induction l as [|x l IHl]; intros l2 H2; inversion H2 as [|? y ? l3 Hxy H3]; subst; [constructor|].
    cbn [filter]. destruct Hxy as [Et Hp]. rewrite forallb_map. rewrite <- Et. destruct (forallb _ rms); auto.
  - unfold keep_recs. rewrite <- keep_rev. revert IH. generalize (rev (grecs evs)). generalize (held evs). clear.
    induction l as [|x l IHl]; intros l2 H2; inversion H2 as [|? y ? l3 Hxy H3]; subst; [constructor|].
    cbn [filter]. destruct Hxy as [Et Hp]. rewrite <- Et. destruct (rt <=? fst (fst x)); auto.
  - destruct (grecs evs) as [|y recs]; cbn [rev tl] in *.
    + inversion IH. constructor.
    + destruct (last_case (held evs)) as [E|(l' & x & E)]; rewrite E in IH |- *.
      * inversion IH as [E0|]. destruct (rev recs); discriminate.
      * rewrite removelast_last. apply Forall2_app_inv_l in IH as (a & b & A & B & Eq).
        inversion B as [|? ? ? ? _ B']; subst. inversion B'; subst. apply app_inj_tail in Eq as [<- _]. exact A.
  - cbn [rev]. apply Forall2_app; [exact IH|]. constructor; [|constructor]. split; [reflexivity|]. cbn [fst snd].
    intros p Hp. unfold firstf. refine (recorded_same p _ (GFirst m0 fa tries t src o zd) src (o p) _ HeE (or_intror (or_introl eq_refl)) Hp).
    now apply (tried_regv EVS m0 fa tries t src o zd p HeE fine_found).
Qed.
End Inv.

Lemma held_rec evs t src o : fine delta patch sha1 same loose evs -> In (t, src, o) (held evs) ->
  exists f, In (t, f) (grecs evs) /\ forall p, updated (o p) -> same_state same (node_at src p) (f p).
Proof using.
  intros HF Hin. pose proof (held_recs evs HF evs (fun e He => He)) as H2. revert H2 Hin.
  assert (Hrev : forall f, In (t, f) (rev (grecs evs)) -> In (t, f) (grecs evs)).
  { intros f Hf. apply in_rev in Hf. exact Hf. }
  revert Hrev. generalize (rev (grecs evs)). generalize (held evs).
  induction l as [|x l IHl]; intros l2 Hrev H2 Hin; inversion H2 as [|? [t' f'] ? l3 [Et Hp] H3]; subst; [destruct Hin|].
  destruct Hin as [->|Hin].
  - cbn in Et, Hp. subst t'. exists f'. split; [apply Hrev; now left|exact Hp].
  - apply (IHl l3); auto. intros f Hf. apply Hrev. now right.
Qed.

(** stopping an interleaving gives prefixes *)
Lemma on_data_firstn (L : list (@gop attr)) : forall n, exists k, on_data (firstn n L) = firstn k (on_data L).
Proof using.
  induction L as [|[o|[q o]] L IH]; intros [|n]; cbn; try (exists O; reflexivity).
  - destruct (IH n) as [k E]. exists (S k). cbn. now rewrite E.
  - destruct (IH n) as [k E]. exists k. exact E.
Qed.
Lemma on_path_firstn p (L : list (@gop attr)) : forall n, on_path p (firstn n L) = firstn (length (on_path p (firstn n L))) (on_path p L).
Proof using.
  induction L as [|[o|[q o]] L IH]; intros [|n]; cbn; try reflexivity.
  - apply IH.
  - destruct (idx_eqb q p); cbn; [f_equal|]; apply IH.
Qed.
Lemma run_gops_data t1 (L : list (@gop attr)) : forall r, r_data (run_gops t1 L r) = run_dops (on_data L) (r_data r).
Proof using. induction L as [|[o|[q o]] L IH]; intros r; cbn [run_gops on_data run_dops]; [reflexivity| |]; rewrite IH; reflexivity. Qed.
Lemma run_gops_path t1 p (L : list (@gop attr)) : forall r,
  r_path (run_gops t1 L r) p = files_of (run_pops t1 (on_path p L) (pst None None (r_path r p))).
Proof using.
  induction L as [|[o|[q o]] L IH]; intros r; cbn [run_gops on_path].
  - cbn. unfold files_of, pst. cbn. now destruct (r_path r p).
  - rewrite IH. reflexivity.
  - rewrite IH. cbn [run_gop r_path]. destruct (idx_eqb q p); [|reflexivity]. cbn [run_pops].
    destruct (run_pop t1 o (pst None None (r_path r p))) as [m i M]. unfold pst. cbn [files_of fst snd mirror incs].
    apply run_pops_metas.
Qed.
End Proofs.

(** ** C44 *)
(** Every session which the repository still holds is restored as a whole: exactly one
    entry per path, in order, and for every path whose update worked, what the source had
    in that session; nothing else, in particular nothing where the source had nothing. *)
Theorem C44_every_held_session_restored :
  forall (attr : Type) delta patch sha1 (same loose : attr -> attr -> bool) deq,
  (forall x y, deq x y = true <-> x = y) ->
  forall evs r, grun delta patch sha1 same loose deq evs r -> fine delta patch sha1 same loose evs ->
  forall t src o, In (t, src, o) (held evs) ->
  exists l, restore_tree patch t [] r = Some l /\ listing fst l /\ (forall x, In x l -> snd x <> Absent) /\
    forall p, updated (o p) -> same_state same (node_at src p) (node_at l p).
Proof.
  intros attr delta patch sha1 same loose deq Hdeq evs r HR HF t src o Hin.
  pose proof (run_ginv delta patch sha1 same loose deq Hdeq evs HF evs r HR (fun e He => He)) as HG.
  destruct (held_rec delta patch sha1 same loose evs t src o HF Hin) as (f & Hf & Hs).
  destruct (restore_ginv patch sha1 loose deq Hdeq (contents evs) _ r t f [] HG Hf) as (lt & Hl & Hmd & E).
  exists (recall_tree [] lt f). split; [exact E|]. split; [apply listing_sorted, recall_sorted; exact Hl|].
  split; [intros x Hx; eapply recall_present; eauto|].
  intros p Hp. rewrite (recall_at sha1 [] lt f p Hl Hmd). cbn. auto.
Qed.

(** Restoring a path and what is below it gives the corresponding part of the tree. *)
Theorem C44_restore_of_a_subtree :
  forall (attr : Type) delta patch sha1 (same loose : attr -> attr -> bool) deq,
  (forall x y, deq x y = true <-> x = y) ->
  forall evs r, grun delta patch sha1 same loose deq evs r -> fine delta patch sha1 same loose evs ->
  forall t src o, In (t, src, o) (held evs) ->
  forall l, restore_tree patch t [] r = Some l ->
  forall q, restore_tree patch t q r = Some (filter (fun x => is_prefix q (fst x)) l).
Proof.
  intros attr delta patch sha1 same loose deq Hdeq evs r HR HF t src o Hin l El q.
  pose proof (run_ginv delta patch sha1 same loose deq Hdeq evs HF evs r HR (fun e He => He)) as HG.
  destruct (held_rec delta patch sha1 same loose evs t src o HF Hin) as (f & Hf & Hs).
  destruct (restore_ginv patch sha1 loose deq Hdeq (contents evs) _ r t f [] HG Hf) as (lt & Hl & Hmd & E).
  destruct (restore_ginv patch sha1 loose deq Hdeq (contents evs) _ r t f q HG Hf) as (lt' & Hl' & Hmd' & E').
  rewrite El in E. injection E as ->. rewrite E'. f_equal.
  rewrite (recall_unique sha1 q lt' lt f Hl' Hl Hmd' Hmd). unfold recall_tree.
  clear. induction lt as [|x lt IH]; cbn; [reflexivity|].
  destruct (is_prefix q (fst x)) eqn:E; cbn; rewrite ?E; cbn; now rewrite IH.
Qed.

(** ** C45 *)
(** A backup at a later time is always accepted and completes (with whatever errors in
    single files); the first one at any time after the epoch. *)
Theorem C45_next_session_accepted :
  forall (attr : Type) delta patch sha1 (same loose : attr -> attr -> bool) deq,
  (forall x y, deq x y = true <-> x = y) ->
  forall evs r, grun delta patch sha1 same loose deq evs r -> fine delta patch sha1 same loose evs ->
  forall t src o zd, listing fst src -> 0 < t -> (forall x, In x (held evs) -> fst (fst x) < t) ->
  exists r', gsession delta sha1 same deq t src o zd r = Some r'.
Proof.
  intros attr delta patch sha1 same loose deq Hdeq evs r HR HF t src o zd Hsrc Hpos Ht.
  pose proof (run_ginv delta patch sha1 same loose deq Hdeq evs HF evs r HR (fun e He => He)) as HG.
  pose proof (held_recs delta patch sha1 same loose evs HF evs (fun e He => He)) as H2.
  destruct (grecs delta sha1 same evs) as [|[t1 f1] recs] eqn:Eg.
  - destruct HG as [HD _]. unfold gsession, backup_start. rewrite HD. cbn.
    destruct (Z.leb_spec t 0); [lia|]. eexists; reflexivity.
  - eapply (session_exists delta patch sha1 same loose deq Hdeq (contents evs)); eauto; [discriminate|].
    destruct HG as [HD _]. destruct (dinv_last sha1 deq Hdeq _ _ _ _ HD) as (h & h0 & l0 & _ & _ & Hm & _).
    unfold mirror_time. rewrite Hm.
    cbn [rev] in H2. apply Forall2_app_inv_r in H2 as (l1 & l2 & _ & H2 & E).
    inversion H2 as [|x y ? ? [Ex _] _]; subst. cbn in Ex. rewrite <- Ex. apply Ht. rewrite E. apply in_app_iff. right. now left.
Qed.

Lemma crash_undone :
  forall (attr : Type) delta patch sha1 (same loose : attr -> attr -> bool) deq,
  (forall x y, deq x y = true <-> x = y) ->
  forall evs r, grun delta patch sha1 same loose deq evs r ->
  forall t src o z zd kd kp rms rc, listing fst src ->
  gcrash delta sha1 same deq t src o z zd kd kp r = Some rc ->
  (forall rt b, In (rt, b) rms -> rt <= mirror_time (r_data r)) ->
  forall used att zl,
  fine delta patch sha1 same loose (evs ++ [GCrash t src o z zd kd kp rms used att zl]) ->
  (incs_used (r_data (gremoves rms rc)) = true -> needs_regress (r_data (gremoves rms rc)) false false = NRYes) /\
  (exists r', regresses patch sha1 loose used att zl (gremoves rms rc) r') /\
  forall r', regresses patch sha1 loose used att zl (gremoves rms rc) r' ->
    mirror_time (r_data r') = mirror_time (r_data r) /\ incs_used (r_data r') = used /\
    forall x q, In x (held (evs ++ [GCrash t src o z zd kd kp rms used att zl])) ->
      restore_tree patch (fst (fst x)) q r' = restore_tree patch (fst (fst x)) q r.
Proof.
  intros attr delta patch sha1 same loose deq Hdeq evs r HR t src o z zd kd kp rms rc Hsrc Ec Hrt used att zl HF.
  set (EVS := evs ++ [GCrash t src o z zd kd kp rms used att zl]) in *.
  assert (Hin : forall e, In e evs -> In e EVS) by (intros e He; apply in_app_iff; now left).
  assert (HeE : In (GCrash t src o z zd kd kp rms used att zl) EVS) by (apply in_app_iff; right; now left).
  pose proof (run_ginv delta patch sha1 same loose deq Hdeq EVS HF evs r HR Hin) as HG.
  pose proof (held_recs delta patch sha1 same loose EVS HF EVS (fun e He => He)) as H2. unfold EVS in H2 at 2. rewrite grecs_snoc in H2.
  cbn [grec_step] in H2.
  destruct (grecs delta sha1 same evs) as [|[t1 f1] recs0] eqn:Eg.
  { destruct HG as [HD _]. unfold gcrash in Ec. rewrite HD in Ec. unfold backup_start in Ec. cbn in Ec.
    destruct (t <=? 0); discriminate. }
  assert (Hf1 : forall p, regv EVS p (f1 p)).
  { intros p. apply (grecs_regv delta patch sha1 same loose EVS HF evs t1 f1 p Hin). rewrite Eg. now left. }
  destruct (crash_mid delta patch sha1 same loose deq Hdeq (contents EVS) (occ_nil EVS) (f_librsync _ _ _ _ _ _ HF) (f_sha1 _ _ _ _ _ _ HF) (f_unhashed _ _ _ _ _ _ HF)
    recs0 t1 f1 r t src o z zd kd kp rc HG Hsrc) as (h & fs0 & h0 & l0 & HRe & HI & Hh & Hm & Ht & Hmd & HF2 & HM); auto.
  { intros p. eapply src_okn; eauto. now left. }
  { intros p. eapply from_shows; eauto. now left. }
  assert (Hrt' : forall rt b, In (rt, b) rms -> rt <= t1).
  { intros rt b Hb. specialize (Hrt rt b Hb). unfold mirror_time in Hrt. now rewrite Hm in Hrt. }
  destruct (removals_gmid patch sha1 loose deq _ rms recs0 t1 f1 t h (r_data r) fs0 h0 l0 rc HRe HI Hh Hm Ht HF2 HM Hrt')
    as (h' & d' & fs' & h1 & HR' & HI' & Hh' & Hm' & HF' & HG').
  destruct (regresses_ok delta patch sha1 same loose deq Hdeq (contents EVS) (occ_nil EVS) (f_librsync _ _ _ _ _ _ HF) (f_sha1 _ _ _ _ _ _ HF) (f_unhashed _ _ _ _ _ _ HF)
    _ t1 f1 t h' d' fs' h1 l0 HR' HI' Hh' Hm' Ht Hmd HF' used zl att _ HG') as [Hex Hall].
  split.
  { intros Hus. destruct HG' as [[Hmk _] _]. unfold needs_regress. rewrite Hus. destruct Hmk as [-> | ->]; reflexivity. }
  split; [exact Hex|]. intros r' Hr'. destruct (Hall r' Hr') as [HGr Hu].
  split; [|split; [exact Hu|]].
  - destruct HGr as [HD' _]. destruct (dinv_last sha1 deq Hdeq _ _ _ _ HD') as (? & ? & ? & _ & _ & Hmm & _).
    unfold mirror_time. now rewrite Hm, Hmm.
  - intros x q Hx. set (recs1 := without (map fst rms) ((t1, f1) :: recs0)) in *.
    assert (Hf : exists f, In (fst (fst x), f) recs1).
    { assert (Hrev : forall y, In y (rev recs1) -> In y recs1) by (intros y Hy; now apply in_rev in Hy).
      revert H2 Hx Hrev. generalize (rev recs1). generalize (held EVS).
      induction l as [|x' l IHl]; intros l2 H2 Hx Hrev; inversion H2 as [|? [t' f'] ? l3 [Et Hp] H3]; subst; [destruct Hx|].
      destruct Hx as [->|Hx].
      - cbn in Et. exists f'. rewrite Et. apply Hrev. now left.
      - apply (IHl l3); auto. intros f Hf. apply Hrev. now right. }
    destruct Hf as [f Hf].
    assert (Hf0 : In (fst (fst x), f) ((t1, f1) :: recs0)) by (unfold recs1, without in Hf; now apply filter_In in Hf).
    assert (E1 : recs1 = (t1, f1) :: without (map fst rms) recs0).
    { apply without_hd. intros rt Hy. apply in_map_iff in Hy as ([y b] & <- & Hy). exact (Hrt' y b Hy). }
    rewrite E1 in Hf.
    destruct (restore_ginv patch sha1 loose deq Hdeq (contents EVS) _ r _ f q HG Hf0) as (lt & Hl & Hmd1 & E).
    destruct (restore_ginv patch sha1 loose deq Hdeq (contents EVS) _ r' _ f q HGr Hf) as (lt' & Hl' & Hmd' & E').
    rewrite E, E'. f_equal. exact (recall_unique sha1 q lt' lt f Hl' Hl Hmd' Hmd1).
Qed.

(** An interrupted session, wherever it was interrupted, can always be undone, however
    often the regress itself is interrupted; afterwards every session held before is
    restored exactly as it was before. *)
Theorem C45_interrupted_session_undone :
  forall (attr : Type) delta patch sha1 (same loose : attr -> attr -> bool) deq,
  (forall x y, deq x y = true <-> x = y) ->
  forall evs r, grun delta patch sha1 same loose deq evs r ->
  forall t src o z zd kd kp rc, listing fst src ->
  gcrash delta sha1 same deq t src o z zd kd kp r = Some rc ->
  forall used att zl,
  fine delta patch sha1 same loose (evs ++ [GCrash t src o z zd kd kp [] used att zl]) ->
  (exists r', regresses patch sha1 loose used att zl rc r') /\
  forall r', regresses patch sha1 loose used att zl rc r' ->
    mirror_time (r_data r') = mirror_time (r_data r) /\ incs_used (r_data r') = used /\
    forall x q, In x (held evs) -> restore_tree patch (fst (fst x)) q r' = restore_tree patch (fst (fst x)) q r.
Proof.
  intros attr delta patch sha1 same loose deq Hdeq evs r HR t src o z zd kd kp rc Hsrc Ec used att zl HF.
  destruct (crash_undone attr delta patch sha1 same loose deq Hdeq evs r HR t src o z zd kd kp [] rc Hsrc Ec
    ltac:(intros ? ? []) used att zl HF) as (_ & Hex & Hall).
  split; [exact Hex|]. intros r' Hr'. destruct (Hall r' Hr') as (A & B & C). split; [exact A|]. split; [exact B|].
  intros x q Hx. apply C. rewrite held_snoc. cbn [held_step]. apply filter_In. auto.
Qed.

(** The interruption may come in any order of the operations on different paths and on
    the data directory: stopping any such sequence after the marker was made and before
    the old one is removed is one of the interruptions above. *)
Theorem C45_any_order_of_operations :
  forall (attr : Type) delta sha1 (same : attr -> attr -> bool) deq
    t src o z zd t1 old ops (r : repo),
  backup_start t false false (r_data r) = StBackup (Some t1) ->
  old_listing (Some t1) r = Some old ->
  session_dops deq (Some t1) t (new_listing delta sha1 same (Some t1) old src o r) zd (r_data r) = Some ops ->
  forall L : list (@gop attr), on_data L = ops ->
  (forall p, on_path p L = session_prog delta sha1 same (node_at src p) (o p) (z p) (pst (Some t1) (find_md p old) (r_path r p))) ->
  forall n, (0 < length (on_data (firstn n L)) < length ops)%nat ->
  exists kd kp rc, gcrash delta sha1 same deq t src o z zd kd kp r = Some rc /\
    r_data rc = r_data (run_gops t1 (firstn n L) r) /\
    forall p, r_path rc p = r_path (run_gops t1 (firstn n L) r) p.
Proof.
  intros attr delta sha1 same deq t src o z zd t1 old ops r Est Eold Eops L HL HLp n Hn.
  exists (length (on_data (firstn n L))), (fun p => length (on_path p (firstn n L))).
  unfold gcrash. rewrite Est, Eold, Eops.
  assert (E : Nat.ltb 0 (length (on_data (firstn n L))) && Nat.ltb (length (on_data (firstn n L))) (length ops) = true).
  { apply andb_true_iff. split; apply Nat.ltb_lt; lia. }
  rewrite E. eexists. split; [reflexivity|]. cbn [r_data r_path]. split.
  - rewrite run_gops_data. f_equal. destruct (on_data_firstn L n) as [k Ek]. rewrite Ek, <- HL.
    rewrite firstn_length. destruct (Nat.le_ge_cases k (length (on_data L))) as [Hk|Hk].
    + now rewrite Nat.min_l.
    + rewrite Nat.min_r by assumption. now rewrite firstn_all, firstn_all2.
  - intros p. rewrite run_gops_path. unfold crash. rewrite <- HLp, <- on_path_firstn.
    apply run_pops_metas.
Qed.

(** regress --force *)
Lemma held_times_recs {A B C} (h : list (Z * A * B)) (l : list (Z * C)) (R : Z * A * B -> Z * C -> Prop) :
  Forall2 (fun x y => fst (fst x) = fst y /\ R x y) h l -> map (fun x => fst (fst x)) h = map fst l.
Proof. induction 1 as [|x y h l [E _] HF IH]; cbn; [reflexivity|]. now rewrite E, IH. Qed.

Lemma forced_undone :
  forall (attr : Type) delta patch sha1 (same loose : attr -> attr -> bool) deq,
  (forall x y, deq x y = true <-> x = y) ->
  forall evs r, grun delta patch sha1 same loose deq evs r ->
  forall used att zl, fine delta patch sha1 same loose (evs ++ [GForced used att zl]) ->
  ((length (held evs) <= 1)%nat -> gforce r = None) /\
  ((2 <= length (held evs))%nat -> exists rc, gforce r = Some rc /\
    (exists r', regresses patch sha1 loose used att zl rc r') /\
    forall r', regresses patch sha1 loose used att zl rc r' ->
      mirror_time (r_data r') = last (map (fun x => fst (fst x)) (removelast (held evs))) 0 /\
      incs_used (r_data r') = used /\
      forall x q, In x (removelast (held evs)) ->
        restore_tree patch (fst (fst x)) q r' = restore_tree patch (fst (fst x)) q r).
Proof.
  intros attr delta patch sha1 same loose deq Hdeq evs r HR used att zl HF.
  set (EVS := evs ++ [GForced used att zl]) in *.
  assert (Hin : forall e, In e evs -> In e EVS) by (intros e He; apply in_app_iff; now left).
  assert (HeE : exists used att zl, In (GForced used att zl) EVS) by (exists used, att, zl; apply in_app_iff; right; now left).
  pose proof (run_ginv delta patch sha1 same loose deq Hdeq EVS HF evs r HR Hin) as HG.
  pose proof (held_recs delta patch sha1 same loose EVS HF evs Hin) as H1.
  assert (HL : length (held evs) = length (grecs delta sha1 same evs)).
  { apply (held_times_recs _ _ (fun x y => _)) in H1. apply (f_equal (@length Z)) in H1. now rewrite !map_length, rev_length in H1. }
  pose proof (held_recs delta patch sha1 same loose EVS HF EVS (fun e He => He)) as H2. unfold EVS in H2 at 2. rewrite grecs_snoc in H2.
  unfold EVS in H2. rewrite held_snoc in H2. cbn [grec_step held_step] in H2.
  destruct (grecs delta sha1 same evs) as [|[t1 f1] [|[t0 f0] r0]] eqn:Eg; cbn [length] in HL; rewrite HL; split; intros Hlen; try lia.
  - destruct HG as [HD _]. unfold gforce, force_regress. rewrite HD. reflexivity.
  - eapply (forced_single patch sha1 loose deq Hdeq); eauto.
  - destruct (forced_gmid patch sha1 loose deq Hdeq (contents EVS) t1 f1 t0 f0 r0 r HG) as (rc & h & d0 & fs0 & h0 & l0 & Ec & HRe & HI & Hh & Hm & Ht & Hmd & HF2 & HGm).
    { intros p. refine (forced_shows delta patch sha1 same loose EVS HF p (f0 p) (f1 p) _ _ HeE).
      - apply (grecs_regv delta patch sha1 same loose EVS HF evs t0 f0 p Hin). rewrite Eg. right. now left.
      - apply (grecs_regv delta patch sha1 same loose EVS HF evs t1 f1 p Hin). rewrite Eg. now left. }
    exists rc. split; [exact Ec|].
    destruct (regresses_ok delta patch sha1 same loose deq Hdeq (contents EVS) (occ_nil EVS) (f_librsync _ _ _ _ _ _ HF) (f_sha1 _ _ _ _ _ _ HF) (f_unhashed _ _ _ _ _ _ HF)
      _ t0 f0 t1 h d0 fs0 h0 l0 HRe HI Hh Hm Ht Hmd HF2 used zl att _ HGm) as [Hex Hall].
    split; [exact Hex|]. intros r' Hr'. destruct (Hall r' Hr') as [HGr Hu]. cbn [tl] in H2. split; [|split; [exact Hu|]].
    + destruct HGr as [HD' _]. destruct (dinv_last sha1 deq Hdeq _ _ _ _ HD') as (? & ? & ? & _ & _ & Hmm & _).
      unfold mirror_time. rewrite Hmm. apply (held_times_recs _ _ (fun x y => _)) in H2. rewrite H2. cbn [rev]. rewrite map_app. cbn. now rewrite last_last.
    + intros x q Hx.
      assert (Hf : exists f, In (fst (fst x), f) ((t0, f0) :: r0)).
      { assert (Hrev : forall y, In y (rev ((t0, f0) :: r0)) -> In y ((t0, f0) :: r0)) by (intros y Hy; now apply in_rev in Hy).
        revert H2 Hx Hrev. generalize (rev ((t0, f0) :: r0)). generalize (removelast (held evs)).
        induction l as [|x' l IHl]; intros l2 H2 Hx Hrev; inversion H2 as [|? [t' f'] ? l3 [Et Hp] H3]; subst; [destruct Hx|].
        destruct Hx as [->|Hx].
        - cbn in Et. exists f'. rewrite Et. apply Hrev. now left.
        - apply (IHl l3); auto. intros f Hf. apply Hrev. now right. }
      destruct Hf as [f Hf].
      destruct (restore_ginv patch sha1 loose deq Hdeq (contents EVS) _ r _ f q HG (or_intror Hf)) as (lt & Hl & Hmd1 & E).
      destruct (restore_ginv patch sha1 loose deq Hdeq (contents EVS) _ r' _ f q HGr Hf) as (lt' & Hl' & Hmd' & E').
      rewrite E, E'. f_equal. exact (recall_unique sha1 q lt' lt f Hl' Hl Hmd' Hmd1).
Qed.

(** ** A concrete life of a repository *)
Definition zmeq (x y : meta Z) : bool :=
  match x, y with
  | MReg n h a, MReg n' h' a' =>
      Nat.eqb n n' && (a =? a') && match h, h' with Some u, Some v => beq_bytes u v | None, None => true | _, _ => false end
  | MDir a, MDir a' => a =? a'
  | MSpec d a, MSpec d' a' => beq_bytes d d' && (a =? a')
  | _, _ => false
  end.
Lemma zmeq_ok x y : zmeq x y = true <-> x = y.
Proof.
  destruct x as [n h a|a|d a], y as [n' h' a'|a'|d' a']; cbn; split; intros H; try discriminate; try (injection H as -> || injection H); intros; subst;
    rewrite ?andb_true_iff, ?Nat.eqb_eq, ?Z.eqb_eq in *.
  - destruct H as [[-> ->] H]. destruct h, h'; try discriminate; [|reflexivity]. now rewrite (beq_true _ _ H).
  - split; [auto|]. destruct h'; [apply beq_bytes_refl|reflexivity].
  - now subst.
  - reflexivity.
  - destruct H as [H ->]. now rewrite (beq_true _ _ H).
  - split; [apply beq_bytes_refl|reflexivity].
Qed.

Definition ok_all : idx -> outcome Z := fun _ => OFill.
Definition nz : @dnoise (meta Z) := mk_dn [[]] [[]] 2 true max_diff_chain.
Definition pz : idx -> noise Z := fun _ => mk_noise [IMissing] [7] 8 [1%nat].
Definition src1 : @tree Z :=
  [([], Dir 1); ([bs "a"], Reg (bs "one") 1); ([bs "d"], Dir 1); ([bs "d"; bs "f"], Reg (bs "content") 1); ([bs "p"], Spec (bs "fifo") 1)].
Definition src2 : @tree Z :=
  [([], Dir 2); ([bs "a"], Reg (bs "twone") 2); ([bs "d"], Reg (bs "now a file") 2)].
Definition src3 : @tree Z :=
  [([], Dir 3); ([bs "a"], Dir 3); ([bs "a"; bs "b"], Reg (bs "new") 3); ([bs "d"], Reg (bs "now another") 3)].
Definition src4 : @tree Z := [([], Dir 4); ([bs "a"], Reg (bs "twone!") 4); ([bs "n"], Reg [] 4)].

Notation zsession := (gsession sdelta idhash Z.eqb zmeq).
Definition get_repo (x : option (@repo Z)) : @repo Z := match x with Some r => r | None => gempty end.
Definition r1 := get_repo (zsession 10 src1 ok_all nz gempty).
Definition r2 := get_repo (zsession 20 src2 ok_all nz r1).
Definition rc3 := get_repo (gcrash sdelta idhash Z.eqb zmeq 30 src3 ok_all pz nz 6 (fun _ => 2%nat) r2).
Definition att3 : list ((idx -> noise Z) * nat * (idx -> nat)) := [(pz, 2%nat, fun p => length p)].

Definition ex_life : list gevent :=
  [GSession 10 src1 ok_all nz; GSession 20 src2 ok_all nz;
   GCrash 30 src3 ok_all pz nz 6 (fun _ => 2%nat) [(10, true)] true att3 pz;
   GSession 40 src4 ok_all nz; GRemove 15 true; GForced false att3 pz].

Lemma get_repo_some (x : option (@repo Z)) : match x with Some _ => True | None => False end -> x = Some (get_repo x).
Proof. now destruct x. Qed.

Lemma ex_versions p n : version ex_life p n -> n = node_at src1 p \/ n = node_at src2 p \/ n = node_at src3 p \/ n = node_at src4 p.
Proof.
  intros (e & n0 & He & (src & Es & <-) & Hn). cbn in He.
  repeat (destruct He as [<-|He]); try destruct He; cbn in Es; try (destruct Es; fail); destruct Es as [<-|[]];
    (destruct Hn as [->|[]]; auto).
Qed.
Lemma ex_attr p n : version ex_life p n -> match n with
  | Reg c 1 => n = node_at src1 p | Reg c 2 => n = node_at src2 p | Reg c 3 => n = node_at src3 p | Reg c 4 => n = node_at src4 p
  | Reg _ _ => False | _ => True end.
Proof.
  assert (Hs : forall (s : @tree Z) k, (forall x, In x s -> match snd x with Reg _ a => a = k | _ => True end) ->
     match node_at s p with Reg _ a => a = k | _ => True end).
  { intros s k H. unfold node_at. destruct (find _ s) as [x|] eqn:E; [|exact I]. apply find_some in E as [E _]. exact (H x E). }
  intros H. apply ex_versions in H.
  assert (K : forall s k, (match node_at s p with Reg _ a => a = k | _ => True end) -> n = node_at s p ->
     match n with Reg _ a => a = k | _ => True end) by (intros s k HH ->; exact HH).
  destruct H as [H|[H|[H|H]]];
  [specialize (K src1 1) | specialize (K src2 2) | specialize (K src3 3) | specialize (K src4 4)];
  (assert (HK : match n with Reg _ a => _ | _ => True end) by
     (apply K; [apply Hs; cbn; intros x Hx; repeat (destruct Hx as [<-|Hx]); try destruct Hx; cbn; auto|exact H]));
  destruct n as [|c a| |]; auto; subst a; exact H.
Qed.

Example ex_life_fine : fine sdelta spatch idhash Z.eqb Z.eqb ex_life.
Proof.
  assert (Hd : differences_show Z.eqb ex_life).
  { intros p c a c' a' H1 H2 _ E. apply Z.eqb_eq in E. subst a'. apply ex_attr in H1, H2.
    destruct a as [|q|q]; try (now destruct H1). repeat (destruct q as [q|q|]; try (now destruct H1)); congruence. }
  constructor; auto.
  - intros p ? ? _ _. apply spatch_sdelta.
  - intros p a b x y h _ _ [= <-] [= <-]. reflexivity.
  - discriminate.
  - intros m0 fa tries t src o zd H. cbn in H. destruct H as [H|[H|[H|[H|[H|[H|[]]]]]]]; discriminate.
  - intros t src o p [[zd H]|(m0 & fa & tries & zd & H)]; cbn in H; destruct H as [H|[H|[H|[H|[H|[H|[]]]]]]]; try discriminate; injection H as <- <- <- <-; exact I.
  - intros _ p c a c' a' b H1 H2 El E1 E2. apply Z.eqb_eq in E1, E2. subst b a'. eapply (Hd p); eauto. apply Z.eqb_refl.
Qed.

Lemma ex_fine_part evs : (forall e, In e evs -> In e ex_life) -> fine sdelta spatch idhash Z.eqb Z.eqb evs.
Proof.
  intros Hin. destruct ex_life_fine as [F1 F2 F3 F4 _ F6 F5 _].
  assert (Hd : differences_show Z.eqb evs).
  { intros p c a c' a' H1 H2. apply (F3 p); eapply version_mono; eauto. }
  constructor; auto.
  - intros p ? ? _ _. apply spatch_sdelta.
  - intros p a b x y h _ _ [= <-] [= <-]. reflexivity.
  - discriminate.
  - intros m0 fa tries t src o zd H. exact (F6 m0 fa tries t src o zd (Hin _ H)).
  - intros t src o p [[zd H]|(m0 & fa & tries & zd & H)]; apply (F5 t src o p); [left; eauto|right; eauto 6].
  - intros _ p c a c' a' b H1 H2 El E1 E2. apply Z.eqb_eq in E1, E2. subst b a'. eapply (Hd p); eauto. apply Z.eqb_refl.
Qed.

Lemma listing_dec (l : @tree Z) : (fix go (l : @tree Z) := match l with
   | x :: ((y :: _) as l') => match idx_cmp (fst x) (fst y) with Lt => True | _ => False end /\ go l' | _ => True end) l -> listing fst l.
Proof.
  intros H. apply listing_sorted. unfold sorted_by. apply Sorted_StronglySorted; [intros x y w; apply idx_lt_trans|].
  induction l as [|x l IH]; [constructor|]. destruct l as [|y l]; [repeat constructor|].
  destruct H as [H1 H2]. constructor; [exact (IH H2)|]. constructor. unfold idx_lt. destruct (idx_cmp (fst x) (fst y)); (reflexivity || destruct H1).
Qed.

(** all of it happens: the two first sessions, the interrupted one and its regress
    (interrupted once), another session, a removal, and the last session undone by
    regress --force *)
Example ex_life_runs : exists r, grun sdelta spatch idhash Z.eqb Z.eqb zmeq ex_life r.
Proof.
  assert (H1 : grun sdelta spatch idhash Z.eqb Z.eqb zmeq [GSession 10 src1 ok_all nz] r1).
  { apply (G_step _ _ _ _ _ _ [] gempty); [constructor|repeat constructor; apply listing_dec; vm_compute; tauto|].
    apply get_repo_some. vm_compute. exact I. }
  assert (H2 : grun sdelta spatch idhash Z.eqb Z.eqb zmeq [GSession 10 src1 ok_all nz; GSession 20 src2 ok_all nz] r2).
  { apply (G_step _ _ _ _ _ _ [GSession 10 src1 ok_all nz] r1); [exact H1|repeat constructor; apply listing_dec; vm_compute; tauto|].
    apply get_repo_some. vm_compute. exact I. }
  assert (L3 : listing fst src3) by (apply listing_dec; vm_compute; tauto).
  assert (L4 : listing fst src4) by (apply listing_dec; vm_compute; tauto).
  assert (Ec : gcrash sdelta idhash Z.eqb zmeq 30 src3 ok_all pz nz 6 (fun _ => 2%nat) r2 = Some rc3).
  { apply get_repo_some. vm_compute. exact I. }
  assert (Hrm : forall rt b, In (rt, b) [(10, true)] -> rt <= mirror_time (r_data r2)).
  { intros rt b [E|[]]. injection E as <- <-. vm_compute. discriminate. }
  destruct (crash_undone Z sdelta spatch idhash Z.eqb Z.eqb zmeq zmeq_ok _ r2 H2
     30 src3 ok_all pz nz 6 (fun _ => 2%nat) [(10, true)] rc3 L3 Ec Hrm true att3 pz) as (Hn & [r3 H3] & _).
  { apply ex_fine_part. intros e He. cbn in He |- *. tauto. }
  assert (H4 : grun sdelta spatch idhash Z.eqb Z.eqb zmeq (firstn 3 ex_life) r3).
  { apply (G_step _ _ _ _ _ _ (firstn 2 ex_life) r2); [exact H2|exact (Forall_cons _ L3 (Forall_nil _))|]. exists rc3. split; [exact Ec|]. split; [exact Hrm|].
    split; [apply Hn; vm_compute; reflexivity|exact H3]. }
  destruct (C45_next_session_accepted Z sdelta spatch idhash Z.eqb Z.eqb zmeq zmeq_ok _ r3 H4) with (t := 40) (src := src4) (o := ok_all) (zd := nz) as [r4 H5].
  { apply ex_fine_part. intros e He. cbn in He |- *. tauto. }
  { exact L4. }
  { lia. }
  { intros x Hx. cbn in Hx. repeat (destruct Hx as [<-|Hx]); try destruct Hx; cbn; lia. }
  assert (H6 : grun sdelta spatch idhash Z.eqb Z.eqb zmeq (firstn 4 ex_life) r4).
  { apply (G_step _ _ _ _ _ _ (firstn 3 ex_life) r3); [exact H4|exact (Forall_cons _ L4 (Forall_nil _))|exact H5]. }
  assert (H7 : grun sdelta spatch idhash Z.eqb Z.eqb zmeq (firstn 5 ex_life) (gremove 15 true r4)).
  { apply (G_step _ _ _ _ _ _ (firstn 4 ex_life) r4); [exact H6|constructor|]. split; [|reflexivity].
    pose proof (run_ginv sdelta spatch idhash Z.eqb Z.eqb zmeq zmeq_ok _ (ex_fine_part (firstn 4 ex_life) ltac:(intros e He; cbn in He |- *; tauto)) _ r4 H6 (fun e He => He)) as [HD _].
    destruct (dinv_last idhash zmeq zmeq_ok _ _ _ _ HD) as (? & ? & ? & _ & _ & Hm4 & _). unfold mirror_time. rewrite Hm4. lia. }
  destruct (forced_undone Z sdelta spatch idhash Z.eqb Z.eqb zmeq zmeq_ok _ _ H7 false att3 pz) as [_ Hf].
  { apply ex_fine_part. intros e He. exact He. }
  destruct Hf as (rc & Ef & [r6 H8] & _); [vm_compute; lia|].
  exists r6. apply (G_step _ _ _ _ _ _ (firstn 5 ex_life) (gremove 15 true r4)); [exact H7|constructor|]. exists rc. auto.
Qed.

Example ex_life_held : map (fun x => fst (fst x)) (held ex_life) = [20] /\
  map (fun x => fst (fst x)) (held (firstn 5 ex_life)) = [20; 40] /\ map (fun x => fst (fst x)) (held (firstn 4 ex_life)) = [10; 20; 40].
Proof. auto. Qed.

(** before the interrupted session: both trees come back *)
Example ex_restores : restore_tree spatch 10 [] r2 = Some src1 /\ restore_tree spatch 20 [] r2 = Some src2 /\
  restore_tree spatch 10 [bs "d"] r2 = Some [([bs "d"], Dir 1); ([bs "d"; bs "f"], Reg (bs "content") 1)] /\
  restore_tree spatch 15 [] r2 = None.
Proof. vm_compute. auto. Qed.

Print Assumptions C44_every_held_session_restored.
Print Assumptions C44_restore_of_a_subtree.
Print Assumptions C45_next_session_accepted.
Print Assumptions C45_interrupted_session_undone.
Print Assumptions C45_any_order_of_operations.
Print Assumptions ex_life_runs.
