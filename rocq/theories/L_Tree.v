(** Lemmas about the tree reducer and the fill-in iterator of M_Iter *)
From Coq Require Import List Bool NArith Ascii Lia Sorting.Sorted Sorting.Permutation.
From Verif Require Import Base L_Base M_Iter L_Iter.
Import List ListNotations.

Section ITR.
Context {A : Type}.
Variable key : A -> idx.
Variable fast : A -> bool.
Notation event := (@itr_event A).

Definition ev_idx (e : event) : idx :=
  match e with Start x => key x | Fast x => key x | End i => i end.

(** processing with given open branches, innermost first, all of [l] below the
    outermost one *)
Fixpoint full (l : list A) (bs : list idx) : list event :=
  match l with
  | [] => map End bs
  | x :: l' =>
      let '(ev, r) := finish_branches (key x) bs in
      ev ++ (if fast x then Fast x :: full l' r else Start x :: full l' (key x :: r))
  end.

(** the stack is a chain of directories, each below the next *)
Inductive chain_st : list idx -> Prop :=
| CS_nil : chain_st []
| CS_one b : chain_st [b]
| CS_cons b c st : prefix c b -> c <> b -> chain_st (c :: st) -> chain_st (b :: c :: st).

Lemma chain_all b st : chain_st (b :: st) -> forall d, In d st -> prefix d b /\ d <> b.
Proof.
  revert b. induction st as [|c st IH]; intros b H d Hd; [destruct Hd|].
  inversion H; subst. destruct Hd as [<-|Hd]; [auto|].
  destruct (IH c H5 d Hd) as [P N]. split; [eapply prefix_trans; eauto|].
  intros ->. apply N. apply prefix_antisym; assumption.
Qed.
Lemma chain_tail b st : chain_st (b :: st) -> chain_st st.
Proof. inversion 1; [constructor|assumption]. Qed.
Lemma chain_app s1 s2 : chain_st (s1 ++ s2) -> chain_st s2.
Proof. induction s1; cbn; auto. intros H. apply IHs1. now apply chain_tail in H. Qed.

Lemma finish_spec (i : idx) st : chain_st st ->
  exists s1 s2, st = s1 ++ s2 /\ @finish_branches A i st = (map End s1, s2) /\
    (forall d, In d s1 -> ~ prefix d i) /\ (forall d, In d s2 -> prefix d i).
Proof.
  induction st as [|b st IH]; intros H; cbn.
  - exists [], []. repeat split; intros ? [].
  - destruct (is_prefix b i) eqn:E.
    + apply is_prefix_spec in E. exists [], (b :: st). repeat split; [intros ? []|].
      intros d [<-|Hd]; [assumption|]. eapply prefix_trans; [|exact E].
      now apply (chain_all _ _ H).
    + destruct (IH (chain_tail _ _ H)) as (s1 & s2 & -> & E2 & H1 & H2).
      exists (b :: s1), s2. rewrite E2. repeat split; auto.
      intros d [<-|Hd]; auto. rewrite <- is_prefix_spec. congruence.
Qed.

Lemma full_idx l : forall st e, chain_st st -> sorted_by key l ->
  (forall x d, In x l -> In d st -> d <> key x) ->
  In e (full l st) -> In (ev_idx e) st \/ exists x, In x l /\ ev_idx e = key x.
Proof.
  induction l as [|x l IH]; intros st e HC HS Hn Hin; cbn in Hin.
  - apply in_map_iff in Hin as (d & <- & Hd). now left.
  - destruct (finish_spec (key x) st HC) as (s1 & s2 & -> & E & H1 & H2). rewrite E in Hin.
    pose proof (sorted_inv _ _ _ HS) as [HS' F].
    assert (HC2 : chain_st s2) by now apply chain_app in HC.
    assert (HCx : chain_st (key x :: s2)).
    { destruct s2 as [|c s2]; [constructor|]. constructor; auto.
      - apply H2. now left.
      - apply Hn; [now left|]. apply in_or_app. right. now left. }
    apply in_app_or in Hin as [Hin|Hin].
    + apply in_map_iff in Hin as (d & <- & Hd). left. apply in_or_app. now left.
    + assert (Hn2 : forall y d, In y l -> In d s2 -> d <> key y).
      { intros y d Hy Hd. apply Hn; [now right|]. apply in_or_app. now right. }
      destruct (fast x); destruct Hin as [<-|Hin]; try (right; exists x; cbn; auto; fail).
      * destruct (IH _ _ HC2 HS' Hn2 Hin) as [H|(y & Hy & Ey)].
        -- left. apply in_or_app. now right.
        -- right. exists y. cbn. auto.
      * destruct (IH (key x :: s2) e HCx HS') as [H|(y & Hy & Ey)]; auto.
        -- intros y d Hy [<-|Hd]; [now apply idx_lt_neq, F|auto].
        -- destruct H as [<-|H]; [right; exists x; cbn; auto|]. left. apply in_or_app. now right.
        -- right. exists y. cbn. auto.
Qed.

(** an open directory is closed once, after what is below it, before anything
    which isn't *)
Definition below (d i : idx) : Prop := prefix d i /\ d <> i.

Lemma full_closes l : forall st d, chain_st st -> sorted_by key l ->
  (forall x d, In x l -> In d st -> idx_lt d (key x)) ->
  In d st ->
  exists t2 t3, full l st = t2 ++ End d :: t3 /\
    (forall e, In e t2 -> below d (ev_idx e)) /\
    (forall e, In e t3 -> ~ prefix d (ev_idx e)).
Proof.
  induction l as [|x l IH]; intros st d HC HS Hlt Hd; cbn.
  - apply in_split in Hd as (s1 & s2 & ->).
    exists (map End s1), (map End s2). rewrite map_app. split; [reflexivity|]. split.
    + intros e He. apply in_map_iff in He as (b & <- & Hb). cbn.
      apply in_split in Hb as (u1 & u2 & ->). rewrite <- app_assoc in HC. apply chain_app in HC. cbn in HC.
      apply (chain_all _ _ HC). apply in_or_app. right. now left.
    + intros e He HP. apply in_map_iff in He as (b & <- & Hb). cbn in HP.
      apply chain_app in HC. destruct (chain_all _ _ HC b Hb) as [P N]. apply N.
      now apply prefix_antisym.
  - destruct (finish_spec (key x) st HC) as (s1 & s2 & -> & E & H1 & H2). rewrite E.
    pose proof (sorted_inv _ _ _ HS) as [HS' F].
    assert (HC2 : chain_st s2) by now apply chain_app in HC.
    assert (HCx : chain_st (key x :: s2)).
    { destruct s2 as [|c s2]; [constructor|]. constructor; auto.
      - apply H2. now left.
      - apply idx_lt_neq. apply Hlt; [now left|]. apply in_or_app. right. now left. }
    assert (Hlt2 : forall y b, In y l -> In b s2 -> idx_lt b (key y)).
    { intros y b Hy Hb. apply Hlt; [now right|]. apply in_or_app. now right. }
    assert (Hltx : forall y b, In y l -> In b (key x :: s2) -> idx_lt b (key y)).
    { intros y b Hy [<-|Hb]; auto. }
    assert (Hne2 : forall y b, In y l -> In b s2 -> b <> key y) by (intros; apply idx_lt_neq; auto).
    assert (Hnex : forall y b, In y l -> In b (key x :: s2) -> b <> key y) by (intros; apply idx_lt_neq; auto).
    apply in_app_or in Hd as [Hd|Hd].
    + (* closed now *)
      pose proof (H1 d Hd) as Hnx.
      apply in_split in Hd as (u1 & u2 & ->).
      exists (map End u1), (map End u2 ++ (if fast x then Fast x :: full l s2 else Start x :: full l (key x :: s2))).
      split; [rewrite map_app; cbn; now rewrite <- !app_assoc|]. rewrite <- !app_assoc in HC. cbn in HC. split.
      * intros e He. apply in_map_iff in He as (b & <- & Hb). cbn.
        apply in_split in Hb as (w1 & w2 & ->). rewrite <- app_assoc in HC. apply chain_app in HC. cbn in HC.
        apply (chain_all _ _ HC). apply in_or_app. right. now left.
      * assert (HCd : chain_st (d :: u2 ++ s2)) by now apply chain_app in HC.
        assert (Hst : forall b, In b (u2 ++ s2) -> ~ prefix d b).
        { intros b Hb HP. destruct (chain_all _ _ HCd b Hb) as [P N]. apply N. now apply prefix_antisym. }
        assert (Hdx : idx_lt d (key x)).
        { apply Hlt; [now left|]. apply in_or_app. left. apply in_or_app. right. now left. }
        assert (Hl : forall y, In y l -> ~ prefix d (key y)).
        { intros y Hy HP. apply Hnx. eapply prefix_between; [right; exact Hdx|exact (F y Hy)|exact HP]. }
        intros e He. apply in_app_or in He as [He|He].
        -- apply in_map_iff in He as (b & <- & Hb). cbn. apply Hst. apply in_or_app. now left.
        -- assert (Hs2 : forall b, In b s2 -> ~ prefix d b) by (intros; apply Hst; apply in_or_app; now right).
           destruct (fast x); destruct He as [<-|He]; try exact Hnx.
           ++ destruct (full_idx _ _ _ HC2 HS' Hne2 He) as [H|(y & Hy & ->)]; auto.
           ++ destruct (full_idx _ _ _ HCx HS' Hnex He) as [[<-|H]|(y & Hy & ->)]; auto.
    + (* stays open *)
      pose proof (H2 d Hd) as Hpx.
      assert (Hdx : d <> key x) by (apply idx_lt_neq, Hlt; [now left|apply in_or_app; now right]).
      assert (Hs1 : forall b, In b s1 -> below d b).
      { intros b Hb. apply in_split in Hb as (w1 & w2 & ->). rewrite <- app_assoc in HC. apply chain_app in HC. cbn in HC.
        apply (chain_all _ _ HC). apply in_or_app. now right. }
      destruct (fast x).
      * destruct (IH s2 d HC2 HS' Hlt2 Hd) as (t2 & t3 & Et & T2 & T3).
        exists (map End s1 ++ Fast x :: t2), t3. rewrite Et. split; [now rewrite <- app_assoc|]. split; auto.
        intros e He. apply in_app_or in He as [He|[<-|He]]; auto.
        -- apply in_map_iff in He as (b & <- & Hb). cbn. auto.
        -- cbn. split; auto.
      * destruct (IH (key x :: s2) d HCx HS' Hltx (or_intror Hd)) as (t2 & t3 & Et & T2 & T3).
        exists (map End s1 ++ Start x :: t2), t3. rewrite Et. split; [now rewrite <- app_assoc|]. split; auto.
        intros e He. apply in_app_or in He as [He|[<-|He]]; auto.
        -- apply in_map_iff in He as (b & <- & Hb). cbn. auto.
        -- cbn. split; auto.
Qed.

(** a directory of the listing *)
Lemma full_dir l : forall st x, chain_st st -> sorted_by key l ->
  (forall x d, In x l -> In d st -> idx_lt d (key x)) ->
  In x l -> fast x = false ->
  exists t1 t2 t3, full l st = t1 ++ Start x :: t2 ++ End (key x) :: t3 /\
    (forall e, In e t1 -> ~ prefix (key x) (ev_idx e)) /\
    (forall e, In e t2 -> below (key x) (ev_idx e)) /\
    (forall e, In e t3 -> ~ prefix (key x) (ev_idx e)).
Proof.
  induction l as [|y l IH]; intros st x HC HS Hlt Hx Hf; [destruct Hx|]. cbn.
  destruct (finish_spec (key y) st HC) as (s1 & s2 & -> & E & H1 & H2). rewrite E.
  pose proof (sorted_inv _ _ _ HS) as [HS' F].
  assert (HC2 : chain_st s2) by now apply chain_app in HC.
  assert (HCx : chain_st (key y :: s2)).
  { destruct s2 as [|c s2]; [constructor|]. constructor; auto.
    - apply H2. now left.
    - apply idx_lt_neq. apply Hlt; [now left|]. apply in_or_app. right. now left. }
  assert (Hlt2 : forall z b, In z l -> In b s2 -> idx_lt b (key z)).
  { intros z b Hz Hb. apply Hlt; [now right|]. apply in_or_app. now right. }
  assert (Hltx : forall z b, In z l -> In b (key y :: s2) -> idx_lt b (key z)).
  { intros z b Hz [<-|Hb]; auto. }
  assert (Hs1 : forall e, In e (map (@End A) s1) -> ~ prefix (key x) (ev_idx e)).
  { intros e He HP. apply in_map_iff in He as (b & <- & Hb). cbn in HP.
    assert (idx_lt b (key x)) as L by (apply Hlt; [exact Hx|apply in_or_app; now left]).
    destruct (prefix_le _ _ HP) as [E3|L2]; [rewrite E3 in L; now apply idx_lt_irrefl in L|].
    eapply idx_lt_irrefl, idx_lt_trans; eauto. }
  destruct Hx as [->|Hx].
  - rewrite Hf.
    destruct (full_closes l (key x :: s2) (key x) HCx HS' Hltx (or_introl eq_refl)) as (t2 & t3 & Et & T2 & T3).
    exists (map End s1), t2, t3. rewrite Et. repeat split; auto; apply T2; auto.
  - assert (Hyx : idx_lt (key y) (key x)) by auto.
    assert (Hny : ~ prefix (key x) (key y)).
    { intros HP. destruct (prefix_le _ _ HP) as [E2|L2]; [rewrite E2 in Hyx; now apply idx_lt_irrefl in Hyx|].
      eapply idx_lt_irrefl, idx_lt_trans; eauto. }
    destruct (fast y).
    + destruct (IH s2 x HC2 HS' Hlt2 Hx Hf) as (t1 & t2 & t3 & Et & T1 & T2 & T3).
      exists (map End s1 ++ Fast y :: t1), t2, t3. rewrite Et. repeat split; auto; try apply T2; auto.
      * now rewrite <- app_assoc.
      * intros e He. apply in_app_or in He as [He|[<-|He]]; auto.
    + destruct (IH (key y :: s2) x HCx HS' Hltx Hx Hf) as (t1 & t2 & t3 & Et & T1 & T2 & T3).
      exists (map End s1 ++ Start y :: t1), t2, t3. rewrite Et. repeat split; auto; try apply T2; auto.
      * now rewrite <- app_assoc.
      * intros e He. apply in_app_or in He as [He|[<-|He]]; auto.
Qed.

Definition starts (e : event) : bool := match e with End _ => false | _ => true end.
Definition ev_of (x : A) : event := if fast x then Fast x else Start x.

Lemma filter_ends s : filter starts (map (@End A) s) = [].
Proof. induction s; cbn; auto. Qed.

Lemma finish_ends i st : filter starts (fst (@finish_branches A i st)) = [].
Proof.
  induction st as [|b st IH]; cbn; [reflexivity|]. destruct (is_prefix b i); [reflexivity|].
  destruct (finish_branches i st). exact IH.
Qed.

Lemma full_order l : forall st, filter starts (full l st) = map ev_of l.
Proof.
  induction l as [|x l IH]; intros st; cbn; [apply filter_ends|].
  pose proof (finish_ends (key x) st) as H.
  destruct (finish_branches (key x) st) as [ev r]. cbn in H. rewrite filter_app, H. cbn.
  unfold ev_of at 1. destruct (fast x); cbn; now rewrite IH.
Qed.

(** the code's loop is [full] *)
Lemma run_full l : forall last bs root,
  In root bs -> (forall x, In x l -> prefix root (key x)) -> chain_st bs ->
  sorted_by key l -> (forall x, In x l -> idx_lt last (key x)) ->
  (forall x d, In x l -> In d bs -> idx_lt d (key x)) ->
  itr_run key fast l (mk_itr (Some last) bs false) = Some (full l bs).
Proof.
  induction l as [|x l IH]; intros last bs root Hr Hb HC HS Hl Hd; cbn.
  - reflexivity.
  - unfold itr_call. cbn [st_index branches root_fast].
    assert (E : idx_cmp (key x) last = Gt) by (apply idx_cmp_gt; apply Hl; now left).
    rewrite E.
    destruct (finish_spec (key x) bs HC) as (s1 & s2 & -> & E2 & H1 & H2). rewrite E2.
    pose proof (sorted_inv _ _ _ HS) as [HS' F].
    assert (Hr2 : In root s2).
    { apply in_app_or in Hr as [Hr|Hr]; [|assumption]. exfalso. apply (H1 root Hr). apply Hb. now left. }
    assert (HC2 : chain_st s2) by now apply chain_app in HC.
    assert (Hd2 : forall d, In d s2 -> idx_lt d (key x)).
    { intros d Hdd. apply Hd; [now left|]. apply in_or_app. now right. }
    assert (Hd3 : forall y d, In y l -> In d s2 -> idx_lt d (key y)).
    { intros y d Hy Hdd. apply Hd; [now right|]. apply in_or_app. now right. }
    destruct (s1 ++ s2) eqn:Es.
    { apply app_eq_nil in Es as [_ ->]. destruct Hr2. }
    destruct s2 as [|c s2]; [destruct Hr2|].
    destruct (fast x).
    + rewrite (IH (key x) (c :: s2) root); auto.
      * now rewrite <- app_assoc.
      * intros y Hy. apply Hb. now right.
    + rewrite (IH (key x) (key x :: c :: s2) root); auto.
      * now rewrite <- app_assoc.
      * now right.
      * intros y Hy. apply Hb. now right.
      * constructor; [apply H2; now left| |assumption]. apply idx_lt_neq, Hd2. now left.
      * intros y d Hy [<-|Hdd]; auto.
Qed.

Lemma run_tree root l :
  fast root = false -> sorted_by key (root :: l) -> (forall x, In x l -> prefix (key root) (key x)) ->
  itr_run key fast (root :: l) itr_init = Some (Start root :: full l [key root]).
Proof.
  intros Hf HS Hp. cbn. unfold itr_call. cbn [st_index itr_init]. rewrite Hf.
  apply sorted_inv in HS as [HS F].
  rewrite (run_full l (key root) [key root] (key root)); auto.
  - now left.
  - constructor.
  - intros x d Hx [<-|[]]. auto.
Qed.

(** accepted sequences are in order *)
Lemma call_order x last bs r more ev s' : itr_call key fast x (mk_itr (Some last) bs r) = IOk more ev s' ->
  idx_lt (key x) last -> False.
Proof.
  unfold itr_call. cbn [st_index]. intros H L. rewrite L in H. discriminate.
Qed.
End ITR.

(** ** FillInIter *)
Section Fill.
Context {A : Type}.
Variable key : A -> idx.

Definition fkey (e : A + idx) : idx := match e with inl x => key x | inr i => i end.

Lemma firstn_prefix n (i : idx) : prefix (firstn n i) i.
Proof. exists (skipn n i). now rewrite firstn_skipn. Qed.
Lemma prefix_firstn p i : prefix p i -> p = firstn (length p) i.
Proof. intros H. apply is_prefix_spec in H. unfold is_prefix in H. now apply idx_eqb_eq in H. Qed.
Lemma prefix_length p i : prefix p i -> length p <= length i.
Proof. intros [r ->]. rewrite app_length. lia. Qed.
Lemma prefix_of_both p q i : prefix p i -> prefix q i -> length p <= length q -> prefix p q.
Proof.
  intros H1 H2 L. apply prefix_firstn in H1, H2. rewrite H1, H2.
  exists (skipn (length p) (firstn (length q) i)).
  rewrite <- (firstn_skipn (length p) (firstn (length q) i)) at 1.
  rewrite firstn_firstn, Nat.min_l by assumption. reflexivity.
Qed.
Lemma removelast_firstn (i : idx) : removelast i = firstn (length i - 1) i.
Proof. rewrite removelast_firstn_len. now rewrite Nat.sub_1_r. Qed.

(** the fillers: all strict non-empty prefixes of [cur] which aren't prefixes of
    [old] *)
Lemma fillers_in old cur p : In p (fillers old cur) <->
  prefix p cur /\ p <> cur /\ p <> [] /\ ~ prefix p old.
Proof.
  unfold fillers, idx_parent.
  assert (Hgen : In p (filter (fun p => negb (idx_eqb p (firstn (length p) old)))
           (map (fun i => firstn i cur) (seq 1 (length cur - 1)))) <->
         prefix p cur /\ p <> cur /\ p <> [] /\ ~ prefix p old).
  { rewrite filter_In, negb_true_iff, in_map_iff.
    rewrite <- (is_prefix_spec p old). unfold is_prefix.
    split.
    - intros [(n & <- & Hn) Hnp]. apply in_seq in Hn. repeat split.
      + apply firstn_prefix.
      + intros E. apply (f_equal (@length _)) in E. rewrite firstn_length in E. lia.
      + intros E. apply (f_equal (@length _)) in E. rewrite firstn_length in E. cbn in E. lia.
      + congruence.
    - intros (HP & Hne & Hn0 & Hnp). split; [|now destruct (idx_eqb _ _)].
      exists (length p). split; [symmetry; now apply prefix_firstn|]. apply in_seq.
      assert (length p <= length cur) by now apply prefix_length.
      assert (length p <> length cur).
      { intros E. apply Hne. rewrite (prefix_firstn p cur HP), E. apply firstn_all. }
      destruct p; [congruence|]. cbn in *. lia. }
  destruct (idx_eqb (removelast cur) (removelast old)) eqn:E; [|exact Hgen].
  apply idx_eqb_eq in E. split; [intros []|]. intros (HP & Hne & Hn0 & Hnp). apply Hnp.
  apply (prefix_trans p (removelast old)).
  - rewrite <- E. rewrite removelast_firstn. apply (prefix_of_both p _ cur HP (firstn_prefix _ _)).
    rewrite firstn_length. assert (length p <= length cur) by now apply prefix_length.
    assert (length p <> length cur).
    { intros E2. apply Hne. rewrite (prefix_firstn p cur HP), E2. apply firstn_all. }
    lia.
  - rewrite removelast_firstn. apply firstn_prefix.
Qed.

Lemma firstn_lt (i : idx) n m : n < m -> m <= length i -> idx_lt (firstn n i) (firstn m i).
Proof.
  intros H1 H2. destruct (prefix_le (firstn n i) (firstn m i)) as [E|L]; [| |exact L].
  - apply (prefix_of_both _ _ i); try apply firstn_prefix. rewrite !firstn_length. lia.
  - apply (f_equal (@length _)) in E. rewrite !firstn_length in E. lia.
Qed.

Lemma firstns_sorted (i : idx) k n : k + n <= S (length i) ->
  StronglySorted idx_lt (map (fun m => firstn m i) (seq k n)).
Proof.
  revert k. induction n as [|n IH]; intros k H; cbn; [constructor|].
  constructor; [apply IH; lia|]. apply Forall_forall. intros p Hp.
  apply in_map_iff in Hp as (m & <- & Hm). apply in_seq in Hm. apply firstn_lt; lia.
Qed.

Lemma ss_filter {T} (R : T -> T -> Prop) f l : StronglySorted R l -> StronglySorted R (filter f l).
Proof.
  induction 1 as [|x l Hl IH Hx]; cbn; [constructor|]. destruct (f x); [|assumption].
  constructor; [assumption|]. apply Forall_forall. intros y Hy. apply filter_In in Hy as [Hy _].
  rewrite Forall_forall in Hx. auto.
Qed.

Lemma fillers_sorted old cur : StronglySorted idx_lt (fillers old cur).
Proof.
  unfold fillers. destruct (idx_eqb _ _); [constructor|]. apply ss_filter.
  destruct cur as [|c cur]; [constructor|]. apply firstns_sorted. cbn [length]. lia.
Qed.

Lemma fillers_after old cur p : idx_lt old cur -> In p (fillers old cur) -> idx_lt old p /\ idx_lt p cur.
Proof.
  intros L H. apply fillers_in in H as (HP & Hne & Hn0 & Hnp). split.
  - destruct (idx_trichotomy old p) as [H|[->|H]]; [assumption|exfalso; apply Hnp, prefix_refl|].
    exfalso. apply Hnp. apply (prefix_between p old cur); auto.
  - destruct (prefix_le _ _ HP) as [|H]; [contradiction|assumption].
Qed.

Lemma ss_app {T} (R : T -> T -> Prop) l1 l2 : StronglySorted R l1 -> StronglySorted R l2 ->
  (forall x y, In x l1 -> In y l2 -> R x y) -> StronglySorted R (l1 ++ l2).
Proof.
  induction 1 as [|x l Hl IH Hx]; intros H2 H; cbn; [assumption|]. constructor.
  - apply IH; auto. intros; apply H; cbn; auto.
  - apply Forall_app. split; [assumption|]. apply Forall_forall. intros y Hy. apply H; cbn; auto.
Qed.
Lemma ss_map {S T} (f : S -> T) (R : T -> T -> Prop) l :
  StronglySorted R (map f l) <-> StronglySorted (fun x y => R (f x) (f y)) l.
Proof.
  induction l as [|x l IH]; cbn; [split; constructor|].
  split; intros H; inversion H as [|? ? Hs Hf]; subst; constructor.
  - now apply IH.
  - now rewrite Forall_map in Hf.
  - now apply IH.
  - now rewrite Forall_map.
Qed.

Lemma fill_rest_sorted l : forall old, sorted_by key l -> (forall x, In x l -> idx_lt old (key x)) ->
  sorted_by fkey (fill_rest key old l) /\ forall e, In e (fill_rest key old l) -> idx_lt old (fkey e).
Proof.
  induction l as [|x l IH]; intros old HS Ho; cbn; [split; [constructor|intros ? []]|].
  apply sorted_inv in HS as [HS F]. destruct (IH (key x) HS F) as [I1 I2].
  assert (Hox : idx_lt old (key x)) by (apply Ho; now left).
  split.
  - apply ss_app.
    + apply (ss_map inr (fun a b => idx_lt (fkey a) (fkey b))). cbn. apply fillers_sorted.
    + apply sorted_cons; auto.
    + intros a b Ha Hb. apply in_map_iff in Ha as (p & <- & Hp). cbn.
      destruct (fillers_after _ _ _ Hox Hp) as [_ L]. destruct Hb as [<-|Hb]; [exact L|].
      eapply idx_lt_trans; [exact L|]. auto.
  - intros e He. apply in_app_or in He as [He|[<-|He]]; auto.
    + apply in_map_iff in He as (p & <- & Hp). cbn. now apply (fillers_after _ _ _ Hox Hp).
    + eapply idx_lt_trans; [exact Hox|]. auto.
Qed.

(** every ancestor of what is yielded was yielded (or is an ancestor of the
    element before) *)
Lemma fill_rest_ancestors l : forall old e p, In e (fill_rest key old l) ->
  prefix p (fkey e) -> p <> [] -> prefix p old \/ In p (map fkey (fill_rest key old l)).
Proof.
  induction l as [|x l IH]; intros old e p He HP Hn; [destruct He|]. cbn in He |- *.
  rewrite map_app. cbn. rewrite map_map. cbn. rewrite map_id.
  assert (Hx : forall q, prefix q (key x) -> q <> [] -> prefix q old \/ In q (fillers old (key x) ++ key x :: map fkey (fill_rest key (key x) l))).
  { intros q Hq Hq0. destruct (is_prefix q old) eqn:E; [apply is_prefix_spec in E; auto|].
    right. destruct (idx_eqb q (key x)) eqn:E2.
    - apply idx_eqb_eq in E2. subst q. apply in_or_app. right. now left.
    - apply idx_eqb_neq in E2. apply in_or_app. left. apply fillers_in. repeat split; auto.
      rewrite <- is_prefix_spec. congruence. }
  apply in_app_or in He as [He|[<-|He]].
  - apply in_map_iff in He as (q & <- & Hq). cbn in HP. apply fillers_in in Hq as (Hq & _).
    apply Hx; auto. eapply prefix_trans; eauto.
  - auto.
  - destruct (IH (key x) e p He HP Hn) as [H|H]; [auto|]. right. apply in_or_app. right. now right.
Qed.

Lemma fill_in_sorted l : sorted_by key l -> sorted_by fkey (fill_in key l).
Proof.
  destruct l as [|x l]; intros HS; cbn; [constructor|]. apply sorted_inv in HS as [HS F].
  destruct (fill_rest_sorted l (key x) HS F) as [I1 I2]. apply ss_app.
  - apply (ss_map fkey (fun a b => idx_lt a b)). rewrite map_map. cbn.
    apply firstns_sorted. lia.
  - apply sorted_cons; auto.
  - intros a b Ha Hb. apply in_map_iff in Ha as (n & <- & Hn). apply in_seq in Hn. cbn.
    assert (L : idx_lt (firstn n (key x)) (key x)).
    { rewrite <- (firstn_all (key x)) at 2. apply firstn_lt; lia. }
    destruct Hb as [<-|Hb]; [exact L|]. eapply idx_lt_trans; [exact L|]. auto.
Qed.

Lemma fill_in_ancestors l e p : In e (fill_in key l) -> prefix p (fkey e) -> In p (map fkey (fill_in key l)).
Proof.
  destruct l as [|x l]; intros He HP; [destruct He|]. cbn in He |- *.
  rewrite map_app, map_map. cbn [map fkey].
  assert (Hx : forall q, prefix q (key x) -> In q (map (fun i => firstn i (key x)) (seq 0 (length (key x))) ++ key x :: map fkey (fill_rest key (key x) l))).
  { intros q Hq. destruct (idx_eqb q (key x)) eqn:E.
    - apply idx_eqb_eq in E. subst. apply in_or_app. right. now left.
    - apply idx_eqb_neq in E. apply in_or_app. left. apply in_map_iff. exists (length q).
      split; [symmetry; now apply prefix_firstn|]. apply in_seq.
      assert (length q <= length (key x)) by now apply prefix_length.
      assert (length q <> length (key x)); [|lia].
      intros E2. apply E. rewrite (prefix_firstn _ _ Hq), E2. apply firstn_all. }
  apply in_app_or in He as [He|[<-|He]].
  - apply in_map_iff in He as (n & <- & _). apply Hx. eapply prefix_trans; [exact HP|apply firstn_prefix].
  - auto.
  - destruct p as [|c p].
    + apply Hx. now exists (key x).
    + destruct (fill_rest_ancestors l (key x) e (c :: p) He HP) as [H|H]; [discriminate|auto|].
      apply in_or_app. right. now right.
Qed.

Lemma fill_rest_elems l : forall old, flat_map (fun e => match e with inl x => [x] | inr _ => [] end) (fill_rest key old l) = l.
Proof.
  assert (H : forall q, flat_map (fun e : A + idx => match e with inl x => [x] | inr _ => [] end) (map inr q) = []).
  { induction q; cbn; auto. }
  induction l as [|x l IH]; intros old; cbn; [reflexivity|]. now rewrite flat_map_app, H; cbn; rewrite IH.
Qed.

Lemma fill_in_elems l : flat_map (fun e => match e with inl x => [x] | inr _ => [] end) (fill_in key l) = l.
Proof.
  destruct l as [|x l]; [reflexivity|]. cbn. rewrite flat_map_app. cbn. rewrite fill_rest_elems.
  assert (H : forall (q : list nat), flat_map (fun e : A + idx => match e with inl x => [x] | inr _ => [] end) (map (fun i => inr (firstn i (key x))) q) = []).
  { induction q; cbn; auto. }
  now rewrite H.
Qed.

(** only ancestors are filled in *)
Lemma fill_in_only l i : In (inr i) (fill_in key l) -> exists x, In x l /\ prefix i (key x) /\ i <> key x.
Proof.
  assert (Hr : forall l old, In (inr i) (fill_rest key old l) -> exists x, In x l /\ prefix i (key x) /\ i <> key x).
  { clear l. induction l as [|x l IH]; intros old H; [destruct H|]. cbn in H.
    apply in_app_or in H as [H|[H|H]]; [|discriminate|].
    - apply in_map_iff in H as (q & [= ->] & Hq). apply fillers_in in Hq as (H1 & H2 & _). exists x. cbn. auto.
    - destruct (IH _ H) as (y & Hy & H1). exists y. cbn. auto. }
  destruct l as [|x l]; intros H; [destruct H|]. cbn in H.
  apply in_app_or in H as [H|[H|H]]; [|discriminate|].
  - apply in_map_iff in H as (n & [= <-] & Hn). apply in_seq in Hn. exists x. split; [now left|].
    split; [apply firstn_prefix|]. intros E. apply (f_equal (@length _)) in E.
    rewrite firstn_length in E. lia.
  - destruct (Hr _ _ H) as (y & Hy & H1). exists y. cbn. auto.
Qed.
End Fill.
