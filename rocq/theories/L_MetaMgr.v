(** Lemmas about M_MetaMgr *)
From Coq Require Import List ZArith Bool Lia Sorting.Sorted Sorting.Permutation.
From Verif Require Import Base L_Base M_Iter L_Iter L_Tree L_Lookup L_Core M_MetaMgr.
Import List ListNotations.
Local Open Scope Z_scope.

Section MM.
Context {D : Type}.
Variable deq : D -> D -> bool.
Hypothesis deq_ok : forall x y, deq x y = true <-> x = y.

Notation mfile := (@mfile D).
Notation mrec := (idx * option D)%type.
Notation listing := (list (idx * D)).
Notation look := (find_key (@fst idx (option D))).
Notation msorted := (sorted_by (@fst idx (option D))).
Notation lsorted := (sorted_by (@fst idx D)).

Lemma recs_sorted (l : listing) : lsorted l -> msorted (recs_of l).
Proof. apply map_sorted_by. reflexivity. Qed.

Lemma recs_look (l : listing) i r : look i (recs_of l) = Some r -> exists d, r = (i, Some d).
Proof.
  intros H. apply find_key_some in H as [H E]. apply in_map_iff in H as (x & <- & _). cbn in E. subst. eauto.
Qed.

(** ** diffs *)
Lemma diff_step_key n o : forall p x, In p (collate2 fst fst n o) -> In x (diff_step deq p) ->
  fst x = pair_key fst fst p.
Proof.
  intros [[a|] [b|]] x Hp; apply collate2_sound in Hp; cbn; try (intros []; fail).
  - destruct Hp as (_ & _ & E). destruct (odeq _ _ _); cbn; [intros []|]. intros [<-|[]]. auto.
  - intros [<-|[]]. reflexivity.
  - intros [<-|[]]. reflexivity.
Qed.
Lemma diff_step_len p : (length (diff_step deq p) <= 1)%nat.
Proof. destruct p as [[?|] [?|]]; cbn; try lia. destruct (odeq _ _ _); cbn; lia. Qed.

Lemma diffiter_sorted n o : msorted n -> msorted o -> msorted (diffiter deq n o).
Proof.
  intros Sn So. eapply flat_sorted; [apply collate2_sorted; eassumption| |apply diff_step_len].
  apply diff_step_key.
Qed.

Lemma diffiter_look n o i : msorted n -> msorted o ->
  look i (diffiter deq n o) =
  match look i n, look i o with
  | Some _, None => Some (i, None)
  | None, Some x => Some x
  | Some a, Some b => if odeq deq (snd a) (snd b) then None else Some b
  | None, None => None
  end.
Proof.
  intros Sn So. unfold diffiter.
  etransitivity; [apply (flat_find (pair_key fst fst)); [now apply collate2_sorted|apply diff_step_key|apply diff_step_len]|].
  rewrite collate2_find by assumption.
  destruct (look i n) as [a|] eqn:Ea, (look i o) as [b|] eqn:Eb; cbn; auto.
  - now destruct (odeq deq (snd a) (snd b)).
  - apply find_key_some in Ea as [_ <-]. reflexivity.
Qed.

Lemma odeq_ok x y : odeq deq x y = true <-> x = y.
Proof.
  destruct x, y; cbn; split; intros H; try discriminate; try reflexivity.
  - apply deq_ok in H. now subst.
  - injection H as ->. now apply deq_ok.
Qed.

(** ** patching *)
Definition over (a b : option mrec) : option mrec := match b with Some _ => b | None => a end.

Lemma last_some_app r x : last_some (r ++ [x]) = over (@last_some D r) x.
Proof.
  induction r as [|a r IH]; cbn; [now destruct x|]. rewrite IH. destruct x; cbn; [reflexivity|].
  now destruct (last_some r).
Qed.

Definition keep (r : option mrec) : option mrec :=
  match r with Some (i, Some d) => Some (i, Some d) | _ => None end.

Lemma last_some_in r x : @last_some D r = Some x -> In (Some x) r.
Proof.
  induction r as [|a r IH]; cbn; [discriminate|]. destruct (last_some r) as [y|].
  - intros [= <-]. auto.
  - intros ->. auto.
Qed.

Lemma patched_spec ls : Forall msorted ls ->
  msorted (patched ls) /\
  forall i, look i (patched ls) = keep (last_some (map (look i) ls)).
Proof.
  intros HS. destruct (collate_spec fst ls HS) as (S & HR & HC).
  rewrite Forall_forall in HR.
  set (g := fun r : idx * list (option mrec) => match last_some (snd r) with Some (i, Some d) => [(i, Some d)] | _ => [] end).
  assert (Hk : forall r x, In r (collate fst ls) -> In x (g r) -> fst x = fst r).
  { intros r x Hr. unfold g. destruct (last_some (snd r)) as [[j [d|]]|] eqn:E; cbn [In]; try tauto.
    cbn. intros [<-|[]]. cbn. apply last_some_in in E. destruct (HR r Hr) as [Hrow _]. rewrite Hrow in E.
    apply in_map_iff in E as (l & E & _). apply find_key_some in E. tauto. }
  assert (Hl : forall r, (length (g r) <= 1)%nat).
  { intros r. unfold g. destruct (last_some (snd r)) as [[j [d|]]|]; cbn; lia. }
  split; [eapply flat_sorted; eauto|].
  intros i. unfold patched. fold g. rewrite (flat_find fst fst g _ i S Hk Hl).
  destruct (find_key fst i (collate fst ls)) as [r|] eqn:E.
  - apply find_key_some in E as [Hr <-]. destruct (HR r Hr) as [Hrow _]. unfold g. rewrite Hrow.
    now destruct (last_some _) as [[j [d|]]|].
  - assert (H0 : forall l, In l ls -> look i l = None).
    { intros l Hl0. apply find_key_none. intros x Hx Ex.
      pose proof (HC l x Hl0 Hx) as Hin. apply in_map_iff in Hin as (r & Er & Hr).
      rewrite find_key_none in E. apply (E r Hr). congruence. }
    destruct (last_some (map (look i) ls)) as [x|] eqn:E2; [|reflexivity].
    apply last_some_in in E2. apply in_map_iff in E2 as (l & E2 & Hl0). rewrite H0 in E2 by auto. discriminate.
Qed.

(** ** chains, oldest first *)
Fixpoint chain (fs : list mfile) (h : list (Z * listing)) : Prop :=
  match fs, h with
  | [], [] => True
  | f :: fs', (t, l) :: h' =>
      mf_time f = t /\ lsorted l /\
      match mf_kind f with
      | KSnap => mf_recs f = recs_of l
      | KDiff => match h' with
                 | (_, l') :: _ => mf_recs f = diffiter deq (recs_of l') (recs_of l)
                 | [] => False
                 end
      end /\ chain fs' h'
  | _, _ => False
  end.

Lemma bts_acc l : forall acc, back_to_snap l acc = option_map (fun x => x ++ acc) (@back_to_snap D l []).
Proof.
  induction l as [|f l IH]; intros acc; cbn; [reflexivity|]. destruct (is_snap f); [reflexivity|].
  rewrite IH, (IH [f]). destruct (back_to_snap l []); cbn; [|reflexivity]. now rewrite <- app_assoc.
Qed.

Lemma chain_read fs : forall t l h, chain fs ((t, l) :: h) ->
  exists fsn, back_to_snap fs [] = Some fsn /\ Forall (fun f => msorted (mf_recs f)) fsn /\
    (forall f, fsn = [f] -> mf_recs f = recs_of l) /\
    forall i, keep (last_some (map (look i) (map mf_recs fsn))) = look i (recs_of l).
Proof.
  induction fs as [|f fs IH]; intros t l h HC; [destruct HC|].
  cbn [chain] in HC. destruct HC as (Ht & Hl & Hk & HC). cbn [back_to_snap]. unfold is_snap.
  destruct (mf_kind f) eqn:Ek.
  - exists [f]. split; [reflexivity|]. split; [constructor; [rewrite Hk; now apply recs_sorted|constructor]|].
    split; [intros f' [= <-]; assumption|]. intros i. cbn. rewrite Hk.
    destruct (look i (recs_of l)) as [r|] eqn:E; [|reflexivity]. apply recs_look in E as [d ->]. reflexivity.
  - destruct h as [|[t' l'] h]; [destruct Hk|].
    destruct (IH t' l' h HC) as (fsn & Hb & HF & H1 & HL).
    rewrite bts_acc, Hb. cbn. exists (fsn ++ [f]). split; [reflexivity|].
    assert (Hl' : lsorted l') by (destruct fs; cbn in HC; tauto).
    assert (Sd : msorted (mf_recs f)) by (rewrite Hk; apply diffiter_sorted; now apply recs_sorted).
    split; [|split].
    + apply Forall_app. split; [assumption|]. repeat constructor. assumption.
    + intros f' E. destruct fsn as [|g fsn].
      * destruct fs; cbn in Hb; [discriminate|]. exfalso. destruct (is_snap _); [discriminate|]. rewrite bts_acc in Hb. destruct (back_to_snap fs []); cbn in Hb; [|discriminate]. injection Hb as Hb. now destruct l0.
      * destruct fsn; discriminate.
    + intros i. rewrite !map_app. cbn [map]. rewrite last_some_app. unfold over.
      specialize (HL i). rewrite Hk, diffiter_look by now apply recs_sorted.
      destruct (look i (recs_of l')) as [a|] eqn:Ea, (look i (recs_of l)) as [b|] eqn:Eb.
      * destruct (odeq deq (snd a) (snd b)) eqn:Eq.
        -- apply odeq_ok in Eq. rewrite HL.
           apply recs_look in Ea as [da ->]. apply recs_look in Eb as [db ->]. cbn in Eq. now rewrite Eq.
        -- apply recs_look in Eb as [db ->]. reflexivity.
      * reflexivity.
      * apply recs_look in Eb as [db ->]. reflexivity.
      * exact HL.
Qed.

(** ** sorting *)
Definition asc (l : list mfile) : Prop := StronglySorted (fun a b => mf_time a < mf_time b) l.
Definition desc (l : list mfile) : Prop := StronglySorted (fun a b => mf_time b < mf_time a) l.

Lemma ins_desc_perm x l : Permutation (x :: l) (@ins_desc D x l).
Proof.
  induction l as [|y l IH]; cbn; [auto|]. destruct (_ <=? _); [auto|].
  rewrite perm_swap. now rewrite IH.
Qed.
Lemma sort_desc_perm l : Permutation l (@sort_desc D l).
Proof. induction l as [|x l IH]; cbn; [auto|]. rewrite <- ins_desc_perm. now rewrite IH at 1. Qed.
Lemma ins_desc_sorted x l : StronglySorted (fun a b => mf_time b <= mf_time a) l ->
  StronglySorted (fun a b => mf_time b <= mf_time a) (@ins_desc D x l).
Proof.
  induction l as [|y l IH]; intros S; cbn; [repeat constructor|].
  inversion S; subst. destruct (Z.leb_spec (mf_time y) (mf_time x)).
  - constructor; [assumption|]. constructor; [lia|]. eapply Forall_impl; [|eassumption]. cbn. intros; lia.
  - constructor; auto. apply Forall_forall. intros z Hz.
    apply (Permutation_in _ (Permutation_sym (ins_desc_perm x l))) in Hz. destruct Hz as [<-|Hz]; [lia|].
    rewrite Forall_forall in H2. auto.
Qed.
Lemma sort_desc_sorted l : StronglySorted (fun a b => mf_time b <= mf_time a) (@sort_desc D l).
Proof. induction l; cbn; [constructor|]. now apply ins_desc_sorted. Qed.

Lemma desc_unique l1 : forall l2, desc l1 -> StronglySorted (fun a b => mf_time b <= mf_time a) l2 ->
  Permutation l1 l2 -> l1 = l2.
Proof.
  induction l1 as [|x l1 IH]; intros l2 S1 S2 P.
  - now apply Permutation_nil in P.
  - destruct l2 as [|y l2]; [symmetry in P; now apply Permutation_nil in P|].
    inversion S1 as [|? ? S1' F1]; subst. inversion S2 as [|? ? S2' F2]; subst. rewrite Forall_forall in F1, F2.
    assert (x = y) as ->.
    { pose proof (Permutation_in x P (or_introl eq_refl)) as [->|Hx]; [reflexivity|].
      pose proof (Permutation_in y (Permutation_sym P) (or_introl eq_refl)) as [->|Hy]; [reflexivity|].
      specialize (F1 y Hy). specialize (F2 x Hx). cbn in *. lia. }
    f_equal. apply IH; auto. eapply Permutation_cons_inv; eauto.
Qed.

Lemma asc_rev l : asc l -> desc (rev l).
Proof.
  induction 1 as [|x l S IH F]; cbn; [constructor|].
  apply ss_app; auto; [repeat constructor|].
  intros a b Ha [<-|[]]. rewrite <- in_rev in Ha. rewrite Forall_forall in F. auto.
Qed.

Lemma sort_of_perm files fs : asc fs -> Permutation files fs -> sort_desc files = rev fs.
Proof.
  intros S P. symmetry. apply desc_unique.
  - now apply asc_rev.
  - apply sort_desc_sorted.
  - rewrite <- sort_desc_perm, P. symmetry. apply Permutation_rev.
Qed.

Lemma desc_nodup l : desc l -> has_dup (map mf_time l) = false.
Proof.
  induction 1 as [|x l S IH F]; cbn; [reflexivity|]. rewrite IH, orb_false_r.
  destruct (existsb _ _) eqn:E; [|reflexivity]. apply existsb_exists in E as (z & Hz & E).
  apply in_map_iff in Hz as (y & <- & Hy). apply Z.eqb_eq in E. rewrite Forall_forall in F.
  specialize (F y Hy). cbn in F. lia.
Qed.

Lemma inclist_perm min files fs : asc fs -> Permutation files fs ->
  sorted_inclist min files = Some (filter (fun f => min <=? mf_time f) (rev fs)).
Proof.
  intros S P. unfold sorted_inclist. rewrite (sort_of_perm files fs S P).
  rewrite desc_nodup by now apply asc_rev. reflexivity.
Qed.

Lemma filter_rev {A} (f : A -> bool) l : filter f (rev l) = rev (filter f l).
Proof.
  induction l as [|x l IH]; cbn; [reflexivity|]. rewrite filter_app, IH. cbn.
  destruct (f x); cbn; [reflexivity|now rewrite app_nil_r].
Qed.

(** the part of the history from [t] on *)
Lemma asc_filter t (l : listing) fs : forall h, chain fs h -> asc fs -> In (t, l) h ->
  exists h', chain (filter (fun f => t <=? mf_time f) fs) ((t, l) :: h').
Proof.
  induction fs as [|f fs IH]; intros [|[t0 l0] h] HC S Hin; try (destruct HC; fail); [destruct Hin|].
  pose proof HC as HC0. destruct HC as (Ht & Hl & Hk & HC). inversion S as [|? ? S' F]; subst.
  destruct Hin as [E|Hin].
  - injection E as <- <-. exists h. cbn [filter]. rewrite Z.leb_refl.
    assert (E : filter (fun g => mf_time f <=? mf_time g) fs = fs); [|rewrite E; exact HC0].
    clear - F. induction fs as [|g fs IH]; cbn; [reflexivity|]. inversion F; subst.
    destruct (Z.leb_spec (mf_time f) (mf_time g)); [|lia]. now rewrite IH.
  - destruct (IH h HC S' Hin) as [h' Hh']. exists h'.
    assert (Hgt : mf_time f < t).
    { clear - HC F Hin. revert h HC Hin. induction fs as [|g fs IH]; intros [|[t1 l1] h] HC Hin; try (destruct HC; fail); [destruct Hin|].
      inversion F; subst. destruct HC as (E & _ & _ & HC). destruct Hin as [[= -> ->]|Hin]; [lia|eauto]. }
    cbn [filter]. destruct (Z.leb_spec t (mf_time f)); [lia|]. assumption.
Qed.

Lemma restrict_look p l i : look i (restrict p l) = if is_prefix p i then look i l else None.
Proof. apply (filter_find fst (is_prefix p)). Qed.
Lemma restrict_sorted p l : msorted l -> msorted (restrict p l).
Proof. apply ss_filter. Qed.

(** reading in any listing order of the directory *)
Lemma read_ok fs h files t l p : chain fs h -> asc fs -> Permutation files fs -> In (t, l) h ->
  meta_at_time t p files = RdOk (restrict p (recs_of l)).
Proof.
  intros HC S P Hin. unfold meta_at_time, relevant_incs.
  rewrite (inclist_perm t files fs S P), filter_rev.
  destruct (asc_filter t l fs h HC S Hin) as [h' Hh'].
  set (fs' := filter (fun f => t <=? mf_time f) fs) in *.
  destruct fs' as [|f0 fs0] eqn:Efs; [destruct Hh'|].
  destruct (rev (f0 :: fs0)) as [|x xs] eqn:Er; [destruct fs0; cbn in Er; [discriminate|]; destruct (rev fs0); discriminate|].
  replace (rev (x :: xs)) with (f0 :: fs0) by (rewrite <- Er; now rewrite rev_involutive).
  assert (Ht0 : mf_time f0 = t) by (destruct Hh'; auto). rewrite Ht0, Z.eqb_refl.
  destruct (chain_read _ _ _ _ Hh') as (fsn & Hb & HF & H1 & HL). rewrite Hb.
  assert (Hl : lsorted l) by (destruct Hh' as (_ & H & _); exact H).
  assert (HP : fsn <> [] -> patched (map (fun f => restrict p (mf_recs f)) fsn) = restrict p (recs_of l)).
  { intros _.
    assert (HS : Forall msorted (map (fun f => restrict p (mf_recs f)) fsn)).
    { apply Forall_map. eapply Forall_impl; [|exact HF]. cbn. intros. now apply restrict_sorted. }
    destruct (patched_spec _ HS) as [S1 HL1].
    apply (sorted_ext fst); [assumption|now apply restrict_sorted, recs_sorted|].
    intros i. rewrite HL1, restrict_look, map_map.
    destruct (is_prefix p i) eqn:Ep.
    - rewrite <- HL, map_map. do 2 f_equal. apply map_ext. intros f. now rewrite restrict_look, Ep.
    - assert (E : forall fl : list mfile, last_some (map (fun f => look i (restrict p (mf_recs f))) fl) = None).
      { induction fl as [|g fl IH]; cbn; [reflexivity|]. rewrite IH. now rewrite restrict_look, Ep. }
      now rewrite E. }
  destruct fsn as [|g [|g' fsn]].
  - exfalso. cbn [back_to_snap] in Hb. destruct (is_snap f0); [discriminate|].
    rewrite bts_acc in Hb. destruct (back_to_snap fs0 []) as [w|]; cbn in Hb; [|discriminate]. injection Hb as Hb. now destruct w.
  - now rewrite (H1 g eq_refl).
  - rewrite HP by discriminate. reflexivity.
Qed.

Lemma restrict_nil (l : list mrec) : restrict [] l = l.
Proof.
  unfold restrict. induction l as [|x l IH]; cbn [filter]; [reflexivity|].
  change (is_prefix [] (fst x)) with true. cbv iota. now rewrite IH.
Qed.

(** ** a session *)
Lemma chain_length fs : forall h, chain fs h -> length fs = length h.
Proof. induction fs as [|f fs IH]; intros [|[t l] h] H; cbn in *; try tauto. f_equal. apply IH. tauto. Qed.

Lemma chain_times fs : forall h, chain fs h -> map mf_time fs = map fst h.
Proof. induction fs as [|f fs IH]; intros [|[t l] h] H; cbn in *; try tauto. destruct H as (-> & _ & _ & H). f_equal. auto. Qed.

Lemma chain_last_snap fs f : forall h, chain (fs ++ [f]) h -> exists h0 t l, h = h0 ++ [(t, l)] /\
  f = mk_mf t KSnap (recs_of l) /\ lsorted l.
Proof.
  induction fs as [|g fs IH]; intros [|[t l] h] HC; try (destruct HC; fail); cbn in HC.
  - destruct HC as (Ht & Hl & Hk & HC). destruct h; [|destruct HC].
    exists [], t, l. split; [reflexivity|]. destruct f as [ft [|] fr]; cbn in *; [|tauto]. subst. auto.
  - destruct HC as (_ & _ & _ & HC). destruct (IH h HC) as (h0 & t' & l' & -> & Hf & Hl).
    exists ((t, l) :: h0), t', l'. auto.
Qed.

(** appending a full snapshot *)
Lemma chain_snoc fs : forall h t l, chain fs h -> lsorted l ->
  chain (fs ++ [mk_mf t KSnap (recs_of l)]) (h ++ [(t, l)]).
Proof.
  induction fs as [|g fs IH]; intros [|[t0 l0] h] t l HC Hl; try (destruct HC; fail); cbn in *.
  - auto.
  - destruct HC as (Ht & Hl0 & Hk & HC). split; [assumption|]. split; [assumption|]. split; [|auto].
    destruct (mf_kind g); auto. destruct h as [|[t1 l1] h]; [destruct Hk|]. exact Hk.
Qed.

(** replacing the last but one by a diff *)
Lemma chain_convert fs : forall h t0 l0 t1 l1 r1,
  chain (fs ++ [mk_mf t0 KSnap (recs_of l0); mk_mf t1 KSnap r1]) (h ++ [(t0, l0); (t1, l1)]) ->
  chain (fs ++ [mk_mf t0 KDiff (diffiter deq (recs_of l1) (recs_of l0)); mk_mf t1 KSnap r1]) (h ++ [(t0, l0); (t1, l1)]).
Proof.
  induction fs as [|g fs IH]; intros h t0 l0 t1 l1 r1 HC.
  - destruct h as [|x h]; cbn in *; [tauto|]. destruct x. destruct HC as (_ & _ & _ & HC).
    destruct h as [|y h]; cbn in HC; [destruct HC as (? & ? & ? & HC); destruct HC|].
    destruct y. destruct HC as (_ & _ & _ & HC). destruct h; destruct HC.
  - destruct h as [|[t l] h]; cbn in HC |- *.
    + exfalso. destruct HC as (_ & _ & _ & HC). apply chain_length in HC. rewrite app_length in HC. cbn in HC. lia.
    + destruct HC as (Ht & Hl & Hk & HC). split; [assumption|]. split; [assumption|]. split; [|auto]. exact Hk.
Qed.

Lemma asc_snoc fs f : asc fs -> (forall g, In g fs -> mf_time g < mf_time f) -> asc (fs ++ [f]).
Proof.
  intros S F. apply ss_app; auto; [repeat constructor|]. intros a b Ha [<-|[]]. auto.
Qed.

Lemma asc_times (fs fs' : list mfile) : map mf_time fs = map mf_time fs' -> asc fs -> asc fs'.
Proof.
  revert fs'. induction fs as [|f fs IH]; intros [|f' fs'] E S; cbn in E; try discriminate; [constructor|].
  injection E as E1 E2. inversion S as [|? ? S' F]; subst. constructor; [now apply IH|].
  apply Forall_forall. intros g Hg. rewrite Forall_forall in F.
  assert (In (mf_time g) (map mf_time fs)) as Hi by (rewrite E2; now apply in_map).
  apply in_map_iff in Hi as (g0 & E0 & Hg0). specialize (F g0 Hg0). cbn in F. lia.
Qed.

Lemma del_perm t k (a b : list mfile) : Permutation a b -> Permutation (del_file t k a) (del_file t k b).
Proof. apply filter_perm. Qed.
Lemma del_absent t k (a : list mfile) : (forall f, In f a -> same_name t k f = false) -> del_file t k a = a.
Proof.
  induction a as [|f a IH]; intros H; cbn; [reflexivity|]. rewrite (H f) by now left. cbn.
  f_equal. apply IH. intros; apply H; now right.
Qed.
Lemma del_app t k (a b : list mfile) : del_file t k (a ++ b) = del_file t k a ++ del_file t k b.
Proof. apply filter_app. Qed.
Lemma same_name_time t k (f : mfile) : mf_time f <> t -> same_name t k f = false.
Proof. intros H. unfold same_name. now rewrite (proj2 (Z.eqb_neq _ _) H). Qed.
Lemma same_name_kind t k (f : mfile) : mf_kind f <> k -> same_name t k f = false.
Proof. intros H. unfold same_name. rewrite andb_comm. destruct k, (mf_kind f); congruence || reflexivity. Qed.
Lemma same_name_self t k r : same_name t k (@mk_mf D t k r) = true.
Proof. unfold same_name. cbn. rewrite Z.eqb_refl. now destruct k. Qed.

Lemma check_ok lim fs f files h t l : chain (fs ++ [f]) (h ++ [(t, l)]) -> asc (fs ++ [f]) ->
  (forall g, In g (fs ++ [f]) -> 0 <= mf_time g) ->
  Permutation files (fs ++ [f]) -> mf_kind f = KSnap ->
  (match rev fs with g :: _ => mf_kind g = KSnap | [] => True end) ->
  exists r, check_needs_diff lim files = Some r /\
    match r with
    | None => True
    | Some (new, old) => new = f /\ exists fs0, fs = fs0 ++ [old]
    end.
Proof.
  intros HC S Hpos P Hf Hl. unfold check_needs_diff. rewrite (inclist_perm 0 files _ S P).
  assert (E : filter (fun f => 0 <=? mf_time f) (rev (fs ++ [f])) = rev (fs ++ [f])).
  { rewrite filter_rev. f_equal. clear - Hpos. induction (fs ++ [f]) as [|g w IH]; cbn; [reflexivity|].
    destruct (Z.leb_spec 0 (mf_time g)); [|specialize (Hpos g (or_introl eq_refl)); lia].
    f_equal. apply IH. intros; apply Hpos; now right. }
  rewrite E, rev_app_distr. cbn [rev app].
  destruct (rev fs) as [|g w] eqn:Er.
  - eexists. split; [reflexivity|exact I].
  - unfold is_snap. rewrite Hf, Hl. cbn [andb]. destruct (Nat.leb _ _).
    + eexists. split; [reflexivity|exact I].
    + eexists. split; [reflexivity|]. split; [reflexivity|]. exists (rev w).
      rewrite <- (rev_involutive fs), Er. reflexivity.
Qed.
End MM.
