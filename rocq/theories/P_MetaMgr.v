(** * C12, C06: metadata history, detection of interrupted sessions *)
From Coq Require Import List ZArith Bool Lia Sorting.Sorted Sorting.Permutation.
From Verif Require Import Base L_Base M_Iter L_Iter L_Tree L_Lookup L_Core M_MetaMgr L_MetaMgr L_MetaDir P_Iter.
Import List ListNotations.
Local Open Scope Z_scope.

(** ** Specification *)

(** The history [h] without the sessions before any of the times [rts] *)
Definition without {A} (rts : list Z) (h : list (Z * A)) : list (Z * A) :=
  filter (fun x => forallb (fun rt => rt <=? fst x) rts) h.

(** What the data directory goes through.  [reach h d]: [d] is a possible state
    of the directory when no rdiff-backup process is working on it, and [h] are
    the completed sessions it still holds, oldest first, with the metadata
    recorded by each. *)
Inductive reach {D} (deq : D -> D -> bool) : list (Z * list (idx * D)) -> ddir -> Prop :=
(** first session *)
| R_first t l z ops :
    0 < t -> listing fst l ->
    session_dops deq None t l z empty_dd = Some ops ->
    reach deq [(t, l)] (run_dops ops empty_dd)
(** another session at [t], which the program agrees to start *)
| R_session h d t l z prev ops :
    reach deq h d -> backup_start t false false d = StBackup prev -> listing fst l ->
    session_dops deq prev t l z d = Some ops ->
    reach deq (h ++ [(t, l)]) (run_dops ops d)
(** a session interrupted after [k] operations; perhaps old increments are removed
    ([rms]: times and whether increments remain, every time at most that of the last
    completed session); the interruption is detected and regressed, the regress being
    itself interrupted several times *)
| R_crash h d t l z prev ops k rms used tries d' :
    reach deq h d -> backup_start t false false d = StBackup prev -> listing fst l ->
    session_dops deq prev t l z d = Some ops ->
    (k < length ops)%nat ->
    (forall rt b, In (rt, b) rms -> rt <= mirror_time d) ->
    needs_regress (removals_dd rms (run_dops (firstn k ops) d)) false false = NRYes ->
    regress_tries used tries (removals_dd rms (run_dops (firstn k ops) d)) = Some d' ->
    reach deq (without (map fst rms) h) d'
(** removal of old increments; the current session is always kept *)
| R_remove h d rt u :
    reach deq h d -> (exists x, In x h /\ rt <= fst x) ->
    reach deq (without [rt] h) (remove_older_dd rt u d)
(** regress --force of a complete repository: the last session is undone; the regress
    may be interrupted.  [roots]: the times of the increments of the root directory *)
| R_forced h d roots d1 used tries d' :
    reach deq h d -> (forall t, In t roots -> In t (map fst h)) ->
    force_regress roots d = Some d1 ->
    regress_tries used tries d1 = Some d' ->
    reach deq (removelast h) d'
(** the directory is listed in another order *)
| R_listing h d d' :
    reach deq h d -> Permutation (mfiles d) (mfiles d') -> markers d = markers d' ->
    reach deq h d'.

(** time of the last completed session *)
Definition last_session {D} (h : list (Z * D)) (t : Z) : Prop :=
  In t (map fst h) /\ forall x, In x (map fst h) -> x <= t.

(** ** Proofs *)
Section Thms.
Context {D : Type}.
Variable deq : D -> D -> bool.
Hypothesis deq_ok : forall x y, deq x y = true <-> x = y.
Notation listing_ := (list (idx * D)).

Lemma start_last (h : list (Z * listing_)) d fs t prev : inv deq h d fs ->
  backup_start t false false d = StBackup prev ->
  exists t1, markers d = [t1] /\ prev = Some t1 /\ t1 < t /\ 0 < t1.
Proof.
  intros HI. destruct (inv_last deq h d fs HI) as (fs0 & h0 & t1 & l1 & E & _ & Hm & _).
  assert (Hp : 0 < t1).
  { assert (H : In (mk_mf t1 KSnap (recs_of l1)) fs) by (rewrite E; apply in_snoc; auto).
    apply (i_pos _ _ _ _ HI) in H. exact H. }
  unfold backup_start. 
  assert (Hn : exists w, needs_regress d false false = w /\ (w = NRNew \/ w = NRNo)).
  { unfold needs_regress. rewrite Hm. destruct (incs_used d); cbn; eauto. }
  destruct Hn as (w & -> & Hw). unfold mirror_time. rewrite Hm.
  assert (HB : (if (t1 <? 0) || (t <=? t1) then StAbort else StBackup (if t1 =? 0 then None else Some t1)) = StBackup prev ->
               exists t0, [t1] = [t0] /\ prev = Some t0 /\ t0 < t /\ 0 < t0).
  { destruct (Z.ltb_spec t1 0); [lia|]. destruct (Z.leb_spec t t1); cbn; [discriminate|].
    destruct (Z.eqb_spec t1 0); [lia|]. intros [= <-]. eauto. }
  destruct Hw as [-> | ->]; exact HB.
Qed.

Lemma chain_filter rt fs : forall h : list (Z * listing_), chain deq fs h -> asc fs ->
  chain deq (filter (fun f => negb (mf_time f <? rt)) fs) (filter (fun x => rt <=? fst x) h).
Proof.
  induction fs as [|f fs IH]; intros [|[t l] h] HC S; try (destruct HC; fail); [exact I|].
  pose proof HC as HC0. destruct HC as (Ht & Hl & Hk & HC). inversion S as [|? ? S' F]; subst. cbn [filter fst].
  destruct (Z.ltb_spec (mf_time f) rt) as [L|L]; destruct (Z.leb_spec rt (mf_time f)) as [L'|L']; try lia; cbn [negb].
  - now apply IH.
  - assert (E1 : filter (fun g => negb (mf_time g <? rt)) fs = fs).
    { clear - F L. induction fs as [|g fs IH]; cbn; [reflexivity|]. inversion F; subst.
      destruct (Z.ltb_spec (mf_time g) rt); [lia|]. cbn. f_equal. auto. }
    assert (E2 : filter (fun x : Z * listing_ => rt <=? fst x) h = h).
    { pose proof (chain_times deq fs h HC) as Et. clear - F L Et. revert fs F Et.
      induction h as [|x h IH]; intros fs F Et; cbn; [reflexivity|]. destruct fs as [|g fs]; [discriminate|].
      cbn in Et. injection Et as E1 E2. inversion F; subst. destruct (Z.leb_spec rt (fst x)); [|lia]. f_equal. eauto. }
    rewrite E1, E2. exact HC0.
Qed.

Lemma without_nil {A} (h : list (Z * A)) : without [] h = h.
Proof. induction h as [|x h IH]; [reflexivity|]. unfold without in *. cbn in *. now rewrite IH. Qed.
Lemma without_cons {A} rt rts (h : list (Z * A)) : without (rt :: rts) h = without rts (without [rt] h).
Proof.
  induction h as [|x h IH]; [reflexivity|]. unfold without in *. cbn [filter]. rewrite IH.
  cbn [forallb]. rewrite andb_true_r. destruct (rt <=? fst x); cbn [andb filter]; [|reflexivity].
  reflexivity.
Qed.
Lemma without_one {A} rt (h : list (Z * A)) : without [rt] h = filter (fun x => rt <=? fst x) h.
Proof. unfold without. apply filter_ext. intros x. cbn. apply andb_true_r. Qed.

Notation kf rt := (filter (fun f : @mfile D => negb (mf_time f <? rt))).
Lemma kf_snap rt fs t1 l0 : rt <= t1 -> kf rt (fs ++ [mk_mf t1 KSnap (recs_of l0)]) = kf rt fs ++ [mk_mf t1 KSnap (recs_of l0)].
Proof. intros H. rewrite filter_app. cbn. destruct (Z.ltb_spec t1 rt); [lia|reflexivity]. Qed.
Lemma without_last {A} rt (h0 : list (Z * A)) t1 l0 : rt <= t1 -> without [rt] (h0 ++ [(t1, l0)]) = without [rt] h0 ++ [(t1, l0)].
Proof. intros H. rewrite !without_one, filter_app. cbn. destruct (Z.leb_spec rt t1); [reflexivity|lia]. Qed.

Lemma remove_inv h d fs0 h0 t1 l0 rt u : inv deq h d (fs0 ++ [mk_mf t1 KSnap (recs_of l0)]) -> h = h0 ++ [(t1, l0)] ->
  markers d = [t1] -> rt <= t1 ->
  inv deq (without [rt] h) (remove_older_dd rt u d) (kf rt (fs0 ++ [mk_mf t1 KSnap (recs_of l0)])) /\
  markers (remove_older_dd rt u d) = [t1].
Proof.
  intros [HC HA HP Hpos _] Hh Hm Hrt.
  assert (Hk : markers (remove_older_dd rt u d) = [t1]).
  { cbn. rewrite Hm. cbn. destruct (Z.ltb_spec t1 rt); [lia|reflexivity]. }
  split; [|exact Hk]. constructor.
  - rewrite without_one. now apply chain_filter.
  - now apply ss_filter.
  - cbn. now apply filter_perm.
  - intros f Hf. apply filter_In in Hf as [Hf _]. auto.
  - exists (without [rt] h0), t1, l0. split; [|exact Hk]. rewrite Hh. now apply without_last.
Qed.

Lemma remove_mid h d0 fs0 h0 t1 l0 t rt u d : inv deq h d0 (fs0 ++ [mk_mf t1 KSnap (recs_of l0)]) -> h = h0 ++ [(t1, l0)] ->
  t1 < t -> rt <= t1 -> mid deq (fs0 ++ [mk_mf t1 KSnap (recs_of l0)]) h t1 t d ->
  mid deq (kf rt (fs0 ++ [mk_mf t1 KSnap (recs_of l0)])) (without [rt] h) t1 t (remove_older_dd rt u d).
Proof.
  intros HI Hh Ht Hrt [Hm Hd]. split.
  - cbn. destruct Hm as [-> | ->]; cbn; destruct (Z.ltb_spec t1 rt), (Z.ltb_spec t rt); try lia; auto.
  - destruct Hd as [(ex & P & F)|(fs1 & h1 & l1 & l & E1 & E2 & Hl & P)]; [left|right].
    + exists (kf rt ex). cbn. split; [rewrite (filter_perm _ _ _ P), filter_app; reflexivity|].
      apply Forall_forall. intros x Hx. apply filter_In in Hx as [Hx _]. rewrite Forall_forall in F. auto.
    + apply app_inj_tail in E1 as [<- E1]. injection E1 as E1. rewrite Hh in E2. apply app_inj_tail in E2 as [<- E2]. injection E2 as <-.
      exists (kf rt fs0), (without [rt] h0), l0, l. split; [now apply kf_snap|].
      split; [rewrite Hh; now apply without_last|]. split; [exact Hl|].
      cbn. rewrite (filter_perm _ _ _ P), filter_app. cbn. destruct (Z.ltb_spec t1 rt), (Z.ltb_spec t rt); try lia. reflexivity.
Qed.

Lemma removals_marker rms t1 : forall d : @ddir D, markers d = [t1] -> (forall rt b, In (rt, b) rms -> rt <= t1) ->
  markers (removals_dd rms d) = [t1].
Proof.
  induction rms as [|[rt b] rms IH]; intros d Hm Hrt; [exact Hm|]. cbn [removals_dd fold_left]. apply IH.
  - cbn. rewrite Hm. cbn. destruct (Z.ltb_spec t1 rt); [|reflexivity]. specialize (Hrt rt b (or_introl eq_refl)). lia.
  - intros rt' b' H'. apply (Hrt rt' b'). now right.
Qed.

Lemma removals_mid rms : forall h d0 fs0 h0 t1 l0 t d,
  reach deq h d0 -> inv deq h d0 (fs0 ++ [mk_mf t1 KSnap (recs_of l0)]) -> h = h0 ++ [(t1, l0)] -> markers d0 = [t1] ->
  t1 < t -> (forall rt b, In (rt, b) rms -> rt <= t1) -> mid deq (fs0 ++ [mk_mf t1 KSnap (recs_of l0)]) h t1 t d ->
  exists fs1 h1, reach deq (without (map fst rms) h) (removals_dd rms d0) /\
    inv deq (without (map fst rms) h) (removals_dd rms d0) (fs1 ++ [mk_mf t1 KSnap (recs_of l0)]) /\
    without (map fst rms) h = h1 ++ [(t1, l0)] /\ markers (removals_dd rms d0) = [t1] /\
    mid deq (fs1 ++ [mk_mf t1 KSnap (recs_of l0)]) (without (map fst rms) h) t1 t (removals_dd rms d).
Proof.
  induction rms as [|[rt b] rms IH]; intros h d0 fs0 h0 t1 l0 t d HR HI Hh Hm Ht Hrt Hd.
  - exists fs0, h0. cbn [map removals_dd fold_left]. rewrite without_nil. auto.
  - assert (H1 : rt <= t1) by (apply (Hrt rt b); now left).
    destruct (remove_inv h d0 fs0 h0 t1 l0 rt b HI Hh Hm H1) as [HI' Hm'].
    pose proof (remove_mid h d0 fs0 h0 t1 l0 t rt b d HI Hh Ht H1 Hd) as Hd'.
    rewrite (kf_snap rt fs0 t1 l0 H1) in HI', Hd'.
    cbn [map fst]. rewrite without_cons. cbn [removals_dd fold_left fst snd].
    refine (IH (without [rt] h) (remove_older_dd rt b d0) (kf rt fs0) (without [rt] h0) t1 l0 t (remove_older_dd rt b d) _ HI' _ Hm' Ht _ Hd').
    + apply R_remove; [exact HR|]. exists (t1, l0). split; [rewrite Hh; apply in_app_iff; right; now left|exact H1].
    + rewrite Hh. now apply without_last.
    + intros rt' b' H'. apply (Hrt rt' b'). now right.
Qed.

(** *** a complete repository made to look like an interrupted one *)
Lemma chain_cut fs2 : forall h2 f0 f1 t0 l0 t1 l1, length fs2 = length h2 ->
  chain deq (fs2 ++ [f0; f1]) (h2 ++ [(t0, l0); (t1, l1)]) ->
  chain deq (fs2 ++ [mk_mf t0 KSnap (recs_of l0)]) (h2 ++ [(t0, l0)]) /\
  f1 = mk_mf t1 KSnap (recs_of l1) /\ sorted_by fst l1 /\
  (f0 = mk_mf t0 KSnap (recs_of l0) \/ f0 = mk_mf t0 KDiff (diffiter deq (recs_of l1) (recs_of l0))).
Proof.
  induction fs2 as [|f fs2 IH]; intros [|[t l] h2] f0 f1 t0 l0 t1 l1 HL HC; try discriminate.
  - cbn [app] in *. destruct HC as (E0 & S0 & K0 & E1 & S1 & K1 & _).
    destruct f0 as [x0 k0 r0], f1 as [x1 k1 r1]. cbn in *. subst x0 x1.
    destruct k1; [|destruct K1]. subst r1. split; [cbn; auto|]. split; [reflexivity|]. split; [exact S1|].
    destruct k0; subst r0; auto.
  - cbn in HL. injection HL as HL. cbn [app] in *. destruct HC as (E0 & S0 & K0 & HC).
    destruct (IH h2 f0 f1 t0 l0 t1 l1 HL HC) as (A & B & C & F). split; [|auto]. cbn. split; [exact E0|]. split; [exact S0|]. split; [|exact A].
    destruct (mf_kind f); [exact K0|]. destruct h2 as [|[t2 l2] h2]; cbn in K0 |- *; exact K0.
Qed.

Lemma zsort_asc l : StronglySorted Z.lt l -> M_Core.zsort l = l.
Proof.
  induction 1 as [|x l Hs IH F]; cbn; [reflexivity|]. rewrite IH.
  destruct l as [|y l]; cbn; [reflexivity|]. inversion F; subst. destruct (Z.leb_spec x y); [reflexivity|lia].
Qed.
Lemma zinsert_perm x l : Permutation (x :: l) (M_Core.zinsert x l).
Proof.
  induction l as [|y l IH]; cbn; [constructor; constructor|]. destruct (x <=? y); [reflexivity|].
  rewrite perm_swap. now constructor.
Qed.
Lemma zsort_perm l : Permutation l (M_Core.zsort l).
Proof. induction l as [|x l IH]; cbn; [constructor|]. rewrite <- zinsert_perm. now constructor. Qed.
Lemma zinsert_sorted x l : StronglySorted Z.le l -> StronglySorted Z.le (M_Core.zinsert x l).
Proof.
  induction 1 as [|y l Hs IH F]; cbn; [repeat constructor|]. destruct (Z.leb_spec x y).
  - constructor; [constructor; assumption|]. constructor; [assumption|]. eapply Forall_impl; [|exact F]. cbn. lia.
  - constructor; [assumption|]. apply Forall_forall. intros w Hw. apply (Permutation_in _ (Permutation_sym (zinsert_perm x l))) in Hw.
    destruct Hw as [<-|Hw]; [lia|]. rewrite Forall_forall in F. auto.
Qed.
Lemma zsort_sorted l : StronglySorted Z.le (M_Core.zsort l).
Proof. induction l as [|x l IH]; cbn; [constructor|]. now apply zinsert_sorted. Qed.
Lemma zmem_in x l : M_Core.zmem x l = true <-> In x l.
Proof. induction l as [|y l IH]; cbn; [split; [discriminate|intros []]|]. rewrite orb_true_iff, IH, Z.eqb_eq. intuition congruence. Qed.
Lemma zdedup_in x l : In x (M_Core.zdedup l) <-> In x l.
Proof.
  induction l as [|y l IH]; cbn; [reflexivity|]. destruct (M_Core.zmem y l) eqn:E.
  - rewrite IH. apply zmem_in in E. intuition congruence.
  - cbn. now rewrite IH.
Qed.
Lemma zdedup_nodup l : NoDup (M_Core.zdedup l).
Proof.
  induction l as [|y l IH]; cbn; [constructor|]. destruct (M_Core.zmem y l) eqn:E; [exact IH|].
  constructor; [|exact IH]. rewrite zdedup_in, <- zmem_in, E. discriminate.
Qed.
(** a list is determined by being sorted and by its members *)
Lemma sorted_members l l' : StronglySorted Z.lt l -> StronglySorted Z.lt l' -> (forall x, In x l <-> In x l') -> l = l'.
Proof.
  intros Hs. revert l'. induction Hs as [|x l Hs IH F]; intros l' Hs' HM.
  - destruct l' as [|y l']; [reflexivity|]. destruct (proj2 (HM y) (or_introl eq_refl)).
  - destruct Hs' as [|y l' Hs' F']; [destruct (proj1 (HM x) (or_introl eq_refl))|].
    rewrite Forall_forall in F, F'.
    assert (x = y).
    { destruct (proj1 (HM x) (or_introl eq_refl)) as [E|E]; [now symmetry|].
      destruct (proj2 (HM y) (or_introl eq_refl)) as [E'|E']; [assumption|].
      specialize (F y E'). specialize (F' x E). lia. }
    subst y. f_equal. apply IH; [assumption|]. intros w. split; intros Hw.
    + destruct (proj1 (HM w) (or_intror Hw)) as [<-|E]; [specialize (F x Hw); lia|exact E].
    + destruct (proj2 (HM w) (or_intror Hw)) as [<-|E]; [specialize (F' x Hw); lia|exact E].
Qed.
Lemma le_nodup_lt l : StronglySorted Z.le l -> NoDup l -> StronglySorted Z.lt l.
Proof.
  induction 1 as [|x l Hs IH F]; intros HN; [constructor|]. inversion HN; subst. constructor; [auto|].
  rewrite Forall_forall in F |- *. intros y Hy. specialize (F y Hy). assert (x <> y) by congruence. lia.
Qed.
Lemma increment_times_eq m roots files ts : StronglySorted Z.lt ts ->
  (forall x, In x (m :: roots ++ files) <-> In x ts) -> M_Core.get_increment_times m roots files = ts.
Proof.
  intros Hs HM. unfold M_Core.get_increment_times. apply sorted_members; [|exact Hs|].
  - apply le_nodup_lt; [apply zsort_sorted|]. eapply Permutation_NoDup; [apply zsort_perm|apply zdedup_nodup].
  - intros x. rewrite <- HM, <- (zdedup_in x (m :: roots ++ files)). split; apply Permutation_in; [symmetry|]; apply zsort_perm.
Qed.

Lemma asc_map (fs : list (@mfile D)) : asc fs -> StronglySorted Z.lt (map mf_time fs).
Proof.
  induction 1 as [|f fs Hs IH F]; cbn; constructor; auto. rewrite Forall_forall in F |- *.
  intros x Hx. apply in_map_iff in Hx as (g & <- & Hg). auto.
Qed.

Lemma inv_times (h : list (Z * listing_)) d fs roots m : inv deq h d fs -> (forall t, In t roots -> In t (map fst h)) ->
  mirror_time_must d = Some m -> M_Core.get_increment_times m roots (map mf_time (mfiles d)) = map fst h.
Proof.
  intros HI Hr Hm. pose proof (chain_times deq fs h (i_chain _ _ _ _ HI)) as Et.
  apply increment_times_eq.
  - rewrite <- Et. apply asc_map, (i_asc _ _ _ _ HI).
  - intros x. rewrite <- Et.
    assert (Hp : In x (map mf_time (mfiles d)) <-> In x (map mf_time fs)).
    { split; apply Permutation_in; [|symmetry]; apply Permutation_map, (i_perm _ _ _ _ HI). }
    cbn [In]. rewrite in_app_iff, Hp. split.
    + intros [<-|[H|H]]; [|rewrite Et; auto|exact H].
      destruct (i_mark _ _ _ _ HI) as (h0 & t & l & -> & Hmk). unfold mirror_time_must in Hm. rewrite Hmk in Hm. injection Hm as <-.
      rewrite Et, map_app. apply in_app_iff. right. now left.
    + auto.
Qed.

Lemma last_case {A} (l : list A) : l = [] \/ exists l' x, l = l' ++ [x].
Proof. destruct l as [|y l]; [now left|right]. destruct (@exists_last _ (y :: l)) as (l' & x & E); [discriminate|eauto]. Qed.

(** a forced regress begins like that of an interrupted session *)
Lemma forced_mid h d fs roots : reach deq h d -> inv deq h d fs -> (forall t, In t roots -> In t (map fst h)) ->
  match force_regress roots d with
  | None => exists x, h = [x]
  | Some d1 => exists h2 t0 l0 t1 l1 fs2 d0,
      h = h2 ++ [(t0, l0); (t1, l1)] /\ removelast h = h2 ++ [(t0, l0)] /\ t0 < t1 /\
      inv deq (h2 ++ [(t0, l0)]) d0 (fs2 ++ [mk_mf t0 KSnap (recs_of l0)]) /\ markers d0 = [t0] /\
      mid deq (fs2 ++ [mk_mf t0 KSnap (recs_of l0)]) (h2 ++ [(t0, l0)]) t0 t1 d1 /\ d1 = run_dop (DTouch t0) d
  end.
Proof.
  intros HR HI Hr. destruct (i_mark _ _ _ _ HI) as (h0 & t1 & l1 & Hh & Hm).
  assert (Hmm : mirror_time_must d = Some t1) by (unfold mirror_time_must; now rewrite Hm).
  unfold force_regress. rewrite Hmm, (inv_times h d fs roots t1 HI Hr Hmm).
  pose proof (chain_length deq _ _ (i_chain _ _ _ _ HI)) as HL.
  assert (Em : map fst h = map fst h0 ++ [t1]) by (rewrite Hh, map_app; reflexivity).
  rewrite Em, rev_app_distr. cbn [rev app].
  destruct (last_case h0) as [->|(h2 & [t0 l0] & ->)]; [exists (t1, l1); exact Hh|]. rewrite map_app, rev_app_distr. cbn [map rev app fst]. rewrite Z.eqb_refl.
  rewrite <- app_assoc in Hh. cbn [app] in Hh.
  assert (Efs : exists fs2 f0 f1, fs = fs2 ++ [f0; f1] /\ length fs2 = length h2).
  { rewrite Hh, app_length in HL. cbn in HL.
    destruct (last_case fs) as [->|(fs' & f1 & ->)]; [cbn in HL; lia|].
    destruct (last_case fs') as [->|(fs2 & f0 & ->)]; [cbn in HL; lia|].
    exists fs2, f0, f1. split; [now rewrite <- app_assoc|]. rewrite !app_length in HL. cbn in HL. lia. }
  destruct Efs as (fs2 & f0 & f1 & -> & HL2).
  pose proof (i_chain _ _ _ _ HI) as HC. rewrite Hh in HC.
  destruct (chain_cut fs2 h2 f0 f1 t0 l0 t1 l1 HL2 HC) as (HC' & -> & S1 & Hf0).
  pose proof (i_asc _ _ _ _ HI) as HA.
  assert (Htf : mf_time f0 = t0) by (destruct Hf0 as [-> | ->]; reflexivity).
  assert (Hlt : t0 < t1 /\ asc (fs2 ++ [mk_mf t0 KSnap (recs_of l0)])).
  { replace (fs2 ++ [f0; mk_mf t1 KSnap (recs_of l1)]) with ((fs2 ++ [f0]) ++ [mk_mf t1 KSnap (recs_of l1)]) in HA by now rewrite <- app_assoc.
    destruct (asc_snoc_inv _ _ HA) as [A B]. split.
    - specialize (B f0 ltac:(apply in_snoc; auto)). cbn in B. lia.
    - revert A. apply asc_times. rewrite !map_app. cbn. now rewrite Htf. }
  destruct Hlt as [Hlt HA'].
  exists h2, t0, l0, t1, l1, fs2, (mk_dd [t0] (fs2 ++ [mk_mf t0 KSnap (recs_of l0)]) [] true).
  split; [exact Hh|]. split.
  { rewrite Hh. replace (h2 ++ [(t0, l0); (t1, l1)]) with ((h2 ++ [(t0, l0)]) ++ [(t1, l1)]) by now rewrite <- app_assoc. apply removelast_last. }
  split; [exact Hlt|]. split.
  { constructor; auto.
    - intros f Hf. apply in_snoc in Hf as [Hf| ->].
      + apply (i_pos _ _ _ _ HI). apply in_app_iff. now left.
      + cbn. rewrite <- Htf. apply (i_pos _ _ _ _ HI). apply in_app_iff. right. now left.
    - exists h2, t0, l0. auto. }
  split; [reflexivity|]. split; [|reflexivity].
  split.
  { cbn. rewrite Hm. cbn. destruct (Z.eqb_spec t1 t0); [lia|]. cbn. auto. }
  cbn [run_dop mfiles]. destruct Hf0 as [-> | ->]; [left|right].
  - exists [mk_mf t1 KSnap (recs_of l1)]. split; [|repeat constructor]. rewrite <- app_assoc. cbn [app]. apply (i_perm _ _ _ _ HI).
  - exists fs2, h2, l0, l1. split; [reflexivity|]. split; [reflexivity|]. split; [exact S1|]. apply (i_perm _ _ _ _ HI).
Qed.
Lemma reach_inv (h : list (Z * listing_)) d : reach deq h d -> exists fs, inv deq h d fs.
Proof.
  induction 1 as [t l z ops Hp Hl E|h d t l z prev ops H [fs IH] Hst Hl E|h d t l z prev ops k rms used tries d' H [fs IH] Hst Hl E Hk Hrt Hn Ht
                 |h d rt u H [fs IH] [x [Hx Hr]]|h d roots d1 used tries d' H [fs IH] Hr Hf Ht|h d d' H [fs IH] P Hm].
  - apply listing_sorted in Hl. injection E as <-. exists [mk_mf t KSnap (recs_of l)].
    set (pre := repeat (@DOther D t) (dn_others z) ++ (if dn_incs z then [DInc] else [])).
    set (d1 := run_dops pre (@empty_dd D)).
    assert (E1 : mfiles d1 = [] /\ markers d1 = []).
    { unfold d1, pre. rewrite run_dops_app. split.
      - rewrite files_same, files_same; auto.
        + apply forallb_forall. intros o Ho. apply repeat_spec in Ho. now rewrite Ho.
        + now destruct (dn_incs z).
      - rewrite markers_same, markers_same; auto.
        + apply forallb_forall. intros o Ho. apply repeat_spec in Ho. now rewrite Ho.
        + now destruct (dn_incs z). }
    destruct E1 as [E1 E2].
    set (puts := map (fun r => @DPut D (mk_mf t KSnap r)) (dn_snap z) ++ [DPut (mk_mf t KSnap (recs_of l))]).
    replace (((repeat (DOther t) (dn_others z) ++ (if dn_incs z then [DInc] else []) ++ puts) ++ [DTouch t]))
      with (pre ++ (puts ++ [DTouch t])) by (unfold pre; now rewrite <- !app_assoc).
    rewrite (run_dops_app pre). change (run_dops pre empty_dd) with d1. clearbody d1. rewrite (run_dops_app puts). constructor.
    + cbn. auto.
    + repeat constructor.
    + cbn [run_dops run_dop mfiles].
      apply (put_series t KSnap [] (dn_snap z)) with (ex := []); auto.
      * intros f [].
      * rewrite E1. constructor.
    + intros f [<-|[]]. exact Hp.
    + exists [], t, l. split; [reflexivity|]. cbn [run_dops run_dop markers].
      rewrite markers_same.
      * now rewrite E2.
      * unfold puts. rewrite forallb_app. cbn. rewrite andb_true_r. apply forallb_forall. intros o Ho. apply in_map_iff in Ho as (r & <- & _). reflexivity.
  - apply listing_sorted in Hl. destruct (start_last h d fs t prev IH Hst) as (t1 & Hm & -> & Hlt & _).
    destruct (inv_last deq h d fs IH) as (fs0 & h0 & t2 & l0 & -> & Hh & Hm2 & _). rewrite Hm in Hm2. injection Hm2 as <-.
    eapply session_done; eauto.
  - apply listing_sorted in Hl. destruct (start_last h d fs t prev IH Hst) as (t1 & Hm & -> & Hlt & _).
    destruct (inv_last deq h d fs IH) as (fs0 & h0 & t2 & l0 & -> & Hh & Hm2 & _). rewrite Hm in Hm2. injection Hm2 as <-.
    destruct k as [|k].
    { exfalso. cbn [firstn run_dops] in Hn. unfold needs_regress in Hn. rewrite (removals_marker rms t1 d Hm) in Hn.
      - destruct (incs_used _); discriminate.
      - intros rt b Hb. specialize (Hrt rt b Hb). unfold mirror_time in Hrt. now rewrite Hm in Hrt. }
    assert (Hmid := session_crash deq h d fs0 h0 t1 l0 t l z IH Hh Hm Hlt Hl ops (S k) E ltac:(lia)).
    assert (Hrt' : forall rt b, In (rt, b) rms -> rt <= t1).
    { intros rt b Hb. specialize (Hrt rt b Hb). unfold mirror_time in Hrt. now rewrite Hm in Hrt. }
    destruct (removals_mid rms h d fs0 h0 t1 l0 t _ H IH Hh Hm Hlt Hrt' Hmid) as (fs1 & h1 & _ & HI' & Hh' & _ & Hmid').
    destruct (tries_done deq deq_ok _ _ fs1 h1 t1 l0 t HI' Hh' Hlt used tries _ Hmid') as (d2 & E2 & Hm2 & P2 & _).
    rewrite Ht in E2. injection E2 as <-.
    exists (fs1 ++ [mk_mf t1 KSnap (recs_of l0)]). destruct HI' as [HC HA HP Hpos _]. constructor; auto.
    exists h1, t1, l0. auto.
  - destruct (inv_last deq h d fs IH) as (fs0 & h0 & t1 & l0 & -> & Hh & Hm & _).
    assert (Hle : fst x <= t1).
    { assert (Hin : In (fst x) (map mf_time (fs0 ++ [mk_mf t1 KSnap (recs_of l0)])))
        by (rewrite (chain_times deq _ h (i_chain _ _ _ _ IH)); now apply in_map).
      apply in_map_iff in Hin as (f & <- & Hf). eapply times_le; eauto. }
    eexists. eapply remove_inv; eauto. lia.
  - pose proof (forced_mid h d fs roots H IH Hr) as HM. rewrite Hf in HM.
    destruct HM as (h2 & t0 & l0 & t1 & l1 & fs2 & d0 & Hh & Hrl & Hlt & HI' & Hm0 & Hmid & _).
    destruct (tries_done deq deq_ok _ d0 fs2 h2 t0 l0 t1 HI' eq_refl Hlt used tries _ Hmid) as (d2 & E2 & Hm2 & P2 & _).
    rewrite Ht in E2. injection E2 as <-. rewrite Hrl.
    exists (fs2 ++ [mk_mf t0 KSnap (recs_of l0)]). destruct HI' as [HC HA HP Hpos _]. constructor; auto.
    exists h2, t0, l0. auto.
  - exists fs. destruct IH as [HC HA HP Hpos Hmk]. constructor; auto.
    + now rewrite <- P.
    + now rewrite <- Hm.
Qed.

Lemma inv_last_session h d fs : inv deq h d fs -> exists t, markers d = [t] /\ last_session h t.
Proof.
  intros HI. destruct (inv_last deq h d fs HI) as (fs0 & h0 & t1 & l0 & E & Hh & Hm & _).
  exists t1. split; [assumption|]. split.
  - rewrite Hh, map_app. apply in_app_iff. right. now left.
  - intros x Hx. rewrite <- (chain_times deq fs h (i_chain _ _ _ _ HI)) in Hx. apply in_map_iff in Hx as (f & <- & Hf).
    subst fs. eapply times_le; eauto.
Qed.
End Thms.

(** ** C12 *)

(** In every reachable state the metadata of every session still held is
    recovered exactly, also when restricted to what lies at or below a path. *)
Theorem C12_every_session_recovered :
  forall (D : Type) (deq : D -> D -> bool), (forall x y, deq x y = true <-> x = y) ->
  forall h d, reach deq h d ->
  forall t l p, In (t, l) h ->
  meta_at_time t p (mfiles d) = RdOk (map (fun x => (fst x, Some (snd x))) (filter (fun x => is_prefix p (fst x)) l)).
Proof.
  intros D deq Hdeq h d HR t l p Hin. destruct (reach_inv deq Hdeq h d HR) as [fs HI].
  rewrite (read_ok deq Hdeq fs h (mfiles d) t l p (i_chain _ _ _ _ HI) (i_asc _ _ _ _ HI) (i_perm _ _ _ _ HI) Hin).
  f_equal. unfold restrict, recs_of. clear. induction l as [|x l IH]; cbn; [reflexivity|].
  destruct (is_prefix p (fst x)); cbn; now rewrite IH.
Qed.

(** [is_prefix p i] says that [i] is [p] or lies below it. *)
Theorem C12_restriction_is_subtree : forall p i, is_prefix p i = true <-> inside p i.
Proof. intros. apply is_prefix_spec. Qed.

(** A session is never stopped by the state of the metadata files: there is
    always a full snapshot for the last session, and no duplicate time. *)
Theorem C12_session_never_refused :
  forall (D : Type) (deq : D -> D -> bool), (forall x y, deq x y = true <-> x = y) ->
  forall h d, reach deq h d ->
  forall t t1 l z, last_session h t1 -> t1 < t -> listing fst l ->
  backup_start t false false d = StBackup (Some t1) /\
  exists ops, session_dops deq (Some t1) t l z d = Some ops.
Proof.
  intros D deq Hdeq h d HR t t1 l z HL Hlt Hl. apply listing_sorted in Hl.
  destruct (reach_inv deq Hdeq h d HR) as [fs HI].
  destruct (inv_last_session deq h d fs HI) as (t2 & Hm & HL2).
  assert (t2 = t1) as ->.
  { destruct HL as [A B], HL2 as [A2 B2]. specialize (B t2 A2). specialize (B2 t1 A). lia. }
  destruct (inv_last deq h d fs HI) as (fs0 & h0 & t3 & l0 & -> & Hh & Hm3 & _). rewrite Hm in Hm3. injection Hm3 as <-.
  split.
  - assert (Hp : 0 < t1) by (exact (i_pos _ _ _ _ HI (mk_mf t1 KSnap (recs_of l0)) (proj2 (in_snoc _ _ _) (or_intror eq_refl)))).
    assert (Hn : exists w, needs_regress d false false = w /\ (w = NRNew \/ w = NRNo)).
    { unfold needs_regress. rewrite Hm. destruct (incs_used d); cbn; eauto. }
    destruct Hn as (w & E & Hw). unfold backup_start. rewrite E. unfold mirror_time. rewrite Hm.
    destruct (Z.ltb_spec t1 0); [lia|]. destruct (Z.leb_spec t t1); [lia|]. cbn.
    destruct (Z.eqb_spec t1 0); [lia|]. destruct Hw as [-> | ->]; reflexivity.
  - destruct (session_form deq h d fs0 h0 t1 l0 t l z HI Hh Hm Hlt Hl) as (conv & E & _). eauto.
Qed.

(** ** C06 *)

(** After a completed backup, a successful regress or a removal nothing is
    reported, and the mirror time is the time of the last completed session. *)
Theorem C06_complete_not_reported :
  forall (D : Type) (deq : D -> D -> bool), (forall x y, deq x y = true <-> x = y) ->
  forall h d, reach deq h d ->
  exists t, last_session h t /\ mirror_time d = t /\ mirror_time_must d = Some t /\
    forall force alive, needs_regress d force alive = if incs_used d then NRNo else NRNew.
Proof.
  intros D deq Hdeq h d HR. destruct (reach_inv deq Hdeq h d HR) as [fs HI].
  destruct (inv_last_session deq h d fs HI) as (t & Hm & HL). exists t.
  unfold mirror_time, mirror_time_must, needs_regress. rewrite Hm. split; [exact HL|]. split; [reflexivity|]. split; [reflexivity|].
  intros. now destruct (incs_used d).
Qed.

(** A session interrupted after its first and before its last operation is
    reported as soon as the increments directory has any content. *)
Theorem C06_interrupted_reported :
  forall (D : Type) (deq : D -> D -> bool), (forall x y, deq x y = true <-> x = y) ->
  forall h d, reach deq h d ->
  forall t l z prev ops k, backup_start t false false d = StBackup prev -> listing fst l ->
  session_dops deq prev t l z d = Some ops -> (0 < k < length ops)%nat ->
  let d' := run_dops (firstn k ops) d in
  incs_used d' = true ->
  forall force, needs_regress d' force false = NRYes /\ needs_regress d' true true = NRYes /\
  forall now, backup_start now force false d' = StRegressFirst.
Proof.
  intros D deq Hdeq h d HR t l z prev ops k Hst Hl E Hk d' Hu force. apply listing_sorted in Hl.
  destruct (reach_inv deq Hdeq h d HR) as [fs HI].
  destruct (start_last deq h d fs t prev HI Hst) as (t1 & Hm & -> & Hlt & _).
  destruct (inv_last deq h d fs HI) as (fs0 & h0 & t2 & l0 & -> & Hh & Hm2 & _). rewrite Hm in Hm2. injection Hm2 as <-.
  destruct (session_crash deq h d fs0 h0 t1 l0 t l z HI Hh Hm Hlt Hl ops k E Hk) as [[Hmk|Hmk] _];
    fold d' in Hmk; unfold backup_start, needs_regress; rewrite Hmk, Hu; cbn; repeat split; intros;
    rewrite ?andb_false_r; reflexivity.
Qed.

(** The regress of such a session always completes, however often it is itself
    interrupted, and leaves the files of the completed sessions, and only
    those. *)
Theorem C06_regress_restores_data_directory :
  forall (D : Type) (deq : D -> D -> bool), (forall x y, deq x y = true <-> x = y) ->
  forall h d, reach deq h d ->
  forall t l z prev ops k, backup_start t false false d = StBackup prev -> listing fst l ->
  session_dops deq prev t l z d = Some ops -> (0 < k < length ops)%nat ->
  forall used tries, exists d',
    regress_tries used tries (run_dops (firstn k ops) d) = Some d' /\
    markers d' = markers d /\ Permutation (mfiles d') (mfiles d) /\ incs_used d' = used.
Proof.
  intros D deq Hdeq h d HR t l z prev ops k Hst Hl E Hk used tries. apply listing_sorted in Hl.
  destruct (reach_inv deq Hdeq h d HR) as [fs HI].
  destruct (start_last deq h d fs t prev HI Hst) as (t1 & Hm & -> & Hlt & _).
  destruct (inv_last deq h d fs HI) as (fs0 & h0 & t2 & l0 & -> & Hh & Hm2 & _). rewrite Hm in Hm2. injection Hm2 as <-.
  assert (Hmid := session_crash deq h d fs0 h0 t1 l0 t l z HI Hh Hm Hlt Hl ops k E Hk).
  destruct (tries_done deq Hdeq h d fs0 h0 t1 l0 t HI Hh Hlt used tries _ Hmid) as (d2 & E2 & Hm2 & P2 & Hu).
  exists d2. rewrite Hm. repeat split; auto. rewrite P2. symmetry. apply (i_perm _ _ _ _ HI).
Qed.

(** A first session which didn't complete is recognised and its remains are
    removed. *)
Theorem C06_failed_first_session_removed :
  forall (D : Type) (deq : D -> D -> bool) t l z ops k,
  session_dops deq None t l z empty_dd = Some ops -> (k < length ops)%nat ->
  clean_initial (run_dops (firstn k ops) empty_dd) = @empty_dd D.
Proof.
  intros D deq t l z ops k [= <-] Hk. unfold clean_initial.
  set (pre := repeat (@DOther D t) (dn_others z) ++ (if dn_incs z then [DInc] else [])) in *.
  set (puts := map (fun r => @DPut D (mk_mf t KSnap r)) (dn_snap z) ++ [DPut (mk_mf t KSnap (recs_of l))]).
  assert (Eo : (repeat (DOther t) (dn_others z) ++ (if dn_incs z then [DInc] else []) ++ puts) ++ [DTouch t]
    = (pre ++ puts) ++ [DTouch t]) by (unfold pre; now rewrite <- !app_assoc).
  fold puts in Hk. rewrite Eo in Hk |- *. clear Eo.
  destruct (firstn_snoc_cases k (pre ++ puts) (@DTouch D t)) as [E|E]; [|rewrite app_length in Hk; cbn in Hk; lia].
  rewrite E.
  assert (H : forall ops' (d : @ddir D), (forall o, In o ops' -> match o with DPut f => mf_time f = t /\ mf_kind f = KSnap | DOther _ | DInc => True | _ => False end) ->
     markers d = [] -> (mfiles d = [] \/ exists r, mfiles d = [mk_mf t KSnap r]) ->
     failed_initial (run_dops ops' d) = true).
  { clear. induction ops' as [|o ops' IH]; intros d Ho Hm Hf; cbn.
    - unfold failed_initial. rewrite Hm. destruct Hf as [-> |[r ->]]; reflexivity.
    - apply IH; [intros; apply Ho; now right| |]; specialize (Ho o (or_introl eq_refl)); destruct o; try destruct Ho; cbn; auto.
      destruct f as [ft fk fr]; cbn in *; subst. right. exists fr. unfold put_file. cbn.
      destruct Hf as [-> |[r ->]]; cbn; [reflexivity|]. unfold del_file. cbn. now rewrite same_name_self. }
  rewrite H; auto. intros o Ho.
  assert (Ho' : In o (pre ++ puts)) by (rewrite <- (firstn_skipn k (pre ++ puts)); apply in_app_iff; auto).
  unfold pre, puts in Ho'. rewrite !in_app_iff in Ho'. destruct Ho' as [[Ho'|Ho']|[Ho'|Ho']].
  - apply repeat_spec in Ho'. now rewrite Ho'.
  - destruct (dn_incs z); [|destruct Ho']. destruct Ho' as [<-|[]]. exact I.
  - apply in_map_iff in Ho' as (r & <- & _). auto.
  - destruct Ho' as [<-|[]]. auto.
Qed.

(** *** Where the code falls short *)

(** As long as the increments directory is empty (nothing but the root directory
    has changed since the first session) an interrupted session isn't reported;
    later backups refuse to start, and (with the older marker listed first) even
    `regress --force` does nothing: the repository stays blocked. *)
Theorem C06_empty_increments_refuted :
  exists (h : list (Z * list (idx * Z))) d t l z ops k,
    reach Z.eqb h d /\ listing fst l /\ backup_start t false false d = StBackup (Some 10) /\
    session_dops Z.eqb (Some 10) t l z d = Some ops /\ (0 < k < length ops)%nat /\
    let d' := run_dops (firstn k ops) d in
    (forall force alive, needs_regress d' force alive = NRNew) /\
    (forall now force alive, backup_start now force alive d' = StAbort) /\
    forall d'', Permutation (markers d') (markers d'') -> mfiles d' = mfiles d'' -> hd_error (markers d'') = Some 10 ->
    force_regress [] d'' = None.
Proof.
  exists [(10, [([], 0)])], (run_dops [DPut (mk_mf 10 KSnap [([], Some 0)]); DTouch 10] empty_dd), 20, [([], 0); ([bs "a"], 5)],
    (mk_dn [] [] 0 false max_diff_chain).
  eexists. exists 2%nat. split; [|split; [|split; [reflexivity|split; [reflexivity|split; [cbn; lia|]]]]].
  - apply (R_first Z.eqb 10 [([], 0)] (mk_dn [] [] 0 false max_diff_chain)); [lia| |reflexivity]. repeat constructor.
  - constructor; [repeat constructor|]. repeat constructor.
  - cbn zeta. split; [|split].
    + intros [] []; reflexivity.
    + intros now [] []; reflexivity.
    + intros d'' P E Hh. unfold force_regress, mirror_time_must. rewrite Hh, <- E. vm_compute. reflexivity.
Qed.

(** With an interrupted session present, the time restore takes for the time of
    the mirror depends on the order of the directory listing: it can be the time
    of the interrupted session. *)
Theorem C06_restore_base_refuted :
  exists (h : list (Z * list (idx * Z))) d t l z ops k,
    reach Z.eqb h d /\ listing fst l /\
    session_dops Z.eqb (Some 10) t l z d = Some ops /\ (0 < k < length ops)%nat /\
    let d' := run_dops (firstn k ops) d in
    mirror_time_must d' = Some 20 /\ last_session h 10.
Proof.
  exists [(10, [([], 0)])], (run_dops [DPut (mk_mf 10 KSnap [([], Some 0)]); DTouch 10] empty_dd), 20, [([], 0); ([bs "a"], 5)],
    (mk_dn [] [] 0 true max_diff_chain).
  eexists. exists 1%nat. split; [|split; [|split; [reflexivity|split; [cbn; lia|]]]].
  - apply (R_first Z.eqb 10 [([], 0)] (mk_dn [] [] 0 false max_diff_chain)); [lia| |reflexivity]. repeat constructor.
  - constructor; [repeat constructor|]. repeat constructor.
  - split; [reflexivity|]. split; cbn; [auto|]. intros x [<-|[]]. lia.
Qed.

(** ** Example: three sessions, the last one after a crash while the diff was
    being written *)
Definition exl (n : Z) : list (idx * Z) := [([], n); ([bs "a"], 1); ([bs "b"; bs (if n =? 2 then "x" else "y")], n)].
Definition exz : @dnoise Z := mk_dn [[([], Some 7)]] [[([], None)]] 1 true max_diff_chain.
Definition ex_d1 := run_dops [DOther 10; DInc; DPut (mk_mf 10 KSnap [([], Some 7)]); DPut (mk_mf 10 KSnap (recs_of (exl 1))); DTouch 10] empty_dd.
Lemma exl_listing n : listing fst (exl n).
Proof.
  unfold exl. apply sorted_dec with (f := fun x y => idx_ltb (fst x) (fst y)).
  - intros x y H. now apply before_lt, idx_ltb_lt.
  - destruct (n =? 2); reflexivity.
Qed.
Example ex_reach : exists d, reach Z.eqb [(10, exl 1); (30, exl 3)] d /\
  map (fun f => (mf_time f, mf_kind f)) (mfiles d) = [(30, KSnap); (10, KDiff)] /\
  meta_at_time 10 [bs "b"] (mfiles d) = RdOk [([bs "b"; bs "y"], Some 1)].
Proof.
  eexists. split; [|split].
  - change [(10, exl 1); (30, exl 3)] with ([(10, exl 1)] ++ [(30, exl 3)]).
    eapply R_session with (z := exz) (prev := Some 10).
    + change [(10, exl 1)] with (without (map fst [(5, true)]) [(10, exl 1)]).
      eapply R_crash with (t := 20) (l := exl 2) (z := exz) (prev := Some 10) (k := 8%nat) (rms := [(5, true)]) (used := true) (tries := [1%nat]).
      * apply (R_first Z.eqb 10 (exl 1) exz); [lia|apply exl_listing|reflexivity].
      * reflexivity.
      * apply exl_listing.
      * vm_compute; reflexivity.
      * vm_compute. lia.
      * intros rt b [E|[]]. injection E as <- <-. vm_compute. discriminate.
      * vm_compute; reflexivity.
      * vm_compute; reflexivity.
    + vm_compute; reflexivity.
    + apply exl_listing.
    + vm_compute; reflexivity.
  - vm_compute. reflexivity.
  - vm_compute. reflexivity.
Qed.

Print Assumptions C12_every_session_recovered.
Print Assumptions C12_restriction_is_subtree.
Print Assumptions C12_session_never_refused.
Print Assumptions C06_complete_not_reported.
Print Assumptions C06_interrupted_reported.
Print Assumptions C06_regress_restores_data_directory.
Print Assumptions C06_failed_first_session_removed.
Print Assumptions C06_empty_increments_refuted.
Print Assumptions C06_restore_base_refuted.
