(** Further lemmas about M_Select: file lists, end-to-end glob selection, FilterIter *)
From Coq Require Import List ZArith Bool Ascii Lia Permutation Sorted.
From Verif Require Import Base L_Base M_Iter L_Iter P_Iter M_Select S_Select L_Select L_Glob.
Import List ListNotations.
Local Open Scope Z_scope.

(** ** File lists *)
Definition le_pair (x y : idx * bool) : Prop := fst x = fst y \/ idx_lt (fst x) (fst y).
Lemma insert_pair_perm x l : Permutation (insert_pair x l) (x :: l).
Proof.
  induction l as [|y l IH]; [reflexivity|]. cbn. destruct (pair_cmp _ _); try reflexivity.
  rewrite IH. apply perm_swap.
Qed.
Lemma sort_pairs_perm l : Permutation (sort_pairs l) l.
Proof. induction l as [|x l IH]; [reflexivity|]. cbn. now rewrite insert_pair_perm, IH. Qed.
Lemma pair_cmp_le x y : pair_cmp x y <> Gt -> le_pair x y.
Proof.
  unfold pair_cmp, le_pair. destruct (idx_cmp (fst x) (fst y)) eqn:E; intros H.
  - left. now apply idx_cmp_eq.
  - now right.
  - congruence.
Qed.
Lemma pair_cmp_gt x y : pair_cmp x y = Gt -> le_pair y x.
Proof.
  unfold pair_cmp, le_pair. destruct (idx_cmp (fst x) (fst y)) eqn:E; intros H; try discriminate.
  - left. symmetry. now apply idx_cmp_eq.
  - right. now apply idx_cmp_gt.
Qed.
Lemma le_pair_trans x y z : le_pair x y -> le_pair y z -> le_pair x z.
Proof.
  unfold le_pair. intros [->|A] [<-|B]; auto. right. eapply idx_lt_trans; eauto.
Qed.
Lemma insert_pair_sorted x l : StronglySorted le_pair l -> StronglySorted le_pair (insert_pair x l).
Proof.
  induction 1 as [|y l S IH F]; cbn; [repeat constructor|].
  destruct (pair_cmp x y) eqn:E.
  1,2: (assert (L : le_pair x y) by (apply pair_cmp_le; congruence);
        constructor; [now constructor|]; constructor; [exact L|];
        rewrite Forall_forall in *; intros z Hz; eapply le_pair_trans; eauto).
  constructor; [exact IH|]. eapply Permutation_Forall; [symmetry; apply insert_pair_perm|].
  constructor; [now apply pair_cmp_gt|exact F].
Qed.
Lemma sort_pairs_sorted l : StronglySorted le_pair (sort_pairs l).
Proof. induction l; cbn; [constructor|now apply insert_pair_sorted]. Qed.

Lemma include_only_loop j l cur : StronglySorted le_pair l -> (forall e, In e l -> snd e = true) ->
  (exists e, In e l /\ prefix j (fst e)) /\ fst (filelist_loop j l cur) = Some true \/
  (forall e, In e l -> ~ prefix j (fst e)) /\ fst (filelist_loop j l cur) = None.
Proof.
  intros S; revert cur; induction S as [|[i b] l S IH F]; intros cur A; [right; cbn; tauto|].
  pose proof (A _ (or_introl eq_refl)) as B; cbn in B; subst b.
  cbn [filelist_loop pair_match].
  destruct (idx_ltb i j) eqn:E1.
  - apply L_Iter.idx_ltb_lt in E1.
    destruct (IH (Datatypes.S cur) (fun e H => A e (or_intror H))) as [[[e [I P]] R]|[N R]].
    + left. split; [exists e; split; [now right|exact P]|exact R].
    + right. split; [|exact R]. intros e [<-|I]; [|auto]. cbn. intros P.
      destruct (prefix_le _ _ P) as [->|L]; [now apply idx_lt_irrefl in E1|].
      eapply idx_lt_irrefl, idx_lt_trans; eauto.
  - destruct (idx_eqb i j) eqn:E2.
    + apply idx_eqb_eq in E2; subst i. left. split; [|reflexivity]. exists (j, true). split; [now left|apply prefix_refl].
    + destruct (is_prefix j i) eqn:E3.
      * left. split; [|reflexivity]. exists (i, true). split; [now left|now apply is_prefix_spec].
      * right. split; [|reflexivity]. intros e [<-|I] P.
        -- apply is_prefix_spec in P. cbn in P. congruence.
        -- rewrite Forall_forall in F. specialize (F e I). destruct F as [F|F]; cbn in F.
           ++ rewrite <- F in P. apply is_prefix_spec in P. congruence.
           ++ assert (J : j = i \/ idx_lt j i).
              { destruct (idx_trichotomy j i) as [H|[H|H]]; auto. apply L_Iter.idx_ltb_lt in H. congruence. }
              pose proof (prefix_between _ _ _ J F P) as Q. apply is_prefix_spec in Q. congruence.
Qed.
Lemma exclude_only_loop j l cur : StronglySorted le_pair l -> (forall e, In e l -> snd e = false) ->
  (exists e, In e l /\ prefix (fst e) j) /\ fst (filelist_loop j l cur) = Some false \/
  (forall e, In e l -> ~ prefix (fst e) j) /\ fst (filelist_loop j l cur) = None.
Proof.
  intros S; revert cur; induction S as [|[i b] l S IH F]; intros cur A; [right; cbn; tauto|].
  pose proof (A _ (or_introl eq_refl)) as B; cbn in B; subst b.
  cbn [filelist_loop pair_match].
  destruct (is_prefix i j) eqn:E0.
  { left. split; [|reflexivity]. exists (i, false). split; [now left|now apply is_prefix_spec]. }
  assert (N0 : ~ prefix i j) by (intros H; apply is_prefix_spec in H; congruence).
  destruct (idx_ltb i j) eqn:E1.
  - destruct (IH (Datatypes.S cur) (fun e H => A e (or_intror H))) as [[[e [I P]] R]|[N R]].
    + left. split; [exists e; split; [now right|exact P]|exact R].
    + right. split; [|exact R]. intros e [<-|I]; [exact N0|auto].
  - right. split; [|reflexivity]. intros e [<-|I] P; [auto|].
    assert (J : idx_lt j i).
    { destruct (idx_trichotomy j i) as [H|[H|H]]; auto; [subst; destruct N0; apply prefix_refl|].
      apply L_Iter.idx_ltb_lt in H. congruence. }
    rewrite Forall_forall in F. specialize (F e I). destruct F as [F|F]; cbn in F; [rewrite F in N0; auto|].
    destruct (prefix_le _ _ P) as [Q|Q].
    + rewrite Q in F. eapply idx_lt_irrefl, idx_lt_trans; eauto.
    + eapply idx_lt_irrefl, idx_lt_trans; [exact J|]. eapply idx_lt_trans; eauto.
Qed.

(** ** One include glob, everything else excluded *)
Section Glob.
Variable c : sctx.
Variables (g : bytes) (r : glob_re).
Hypothesis N : no_br g.
Hypothesis C : glob_compile false g = Some r.
Hypothesis B : exists b, c_base c = slash :: b.

Lemma path_app i n : path_of c (i ++ [n]) = path_of c i ++ slash :: n.
Proof.
  unfold path_of. generalize (c_base c) as b. induction i as [|x i IH]; intros b; [reflexivity|].
  change ((x :: i) ++ [n]) with (x :: (i ++ [n])).
  change (join_with [slash] (b :: x :: i ++ [n])) with (b ++ slash :: join_with [slash] (x :: i ++ [n])).
  rewrite (IH x). change (join_with [slash] (b :: x :: i)) with (b ++ slash :: join_with [slash] (x :: i)).
  now rewrite <- app_assoc.
Qed.
Lemma path_below i q : q <> [] -> exists s, path_of c (i ++ q) = path_of c i ++ slash :: s.
Proof.
  induction q as [|n q IH] using rev_ind; [congruence|]. intros _. rewrite app_assoc, path_app.
  destruct q as [|m q]; [rewrite app_nil_r; eauto|]. destruct IH as [s ->]; [discriminate|].
  exists (s ++ slash :: n). rewrite <- !app_assoc. reflexivity.
Qed.
Lemma path_slash i : exists s, path_of c i = slash :: s.
Proof using B.
  destruct B as [b E]. destruct i as [|n i].
  - exists b. exact E.
  - unfold path_of. rewrite E. exists (b ++ slash :: join_with [slash] (n :: i)). reflexivity.
Qed.
(** a directory above a covered file is covered or scanned *)
Lemma above_covered i q : q <> [] -> covered c g (i ++ q) ->
  covered c g i \/ scan_hit r (path_of c i) = true.
Proof using N C B.
  intros Q [p [rest [E [M K]]]]. destruct (path_below i q Q) as [s Es]. rewrite Es in E.
  (* compare the lengths of p and path i *)
  assert (X : forall a b x y : bytes, a ++ x = b ++ y -> (exists z, b = a ++ z /\ x = z ++ y) \/ (exists z, a = b ++ z /\ y = z ++ x)).
  { clear. induction a as [|h a IH]; intros b x y E; [left; exists b; auto|].
    destruct b as [|k b]; [right; exists (h :: a); auto|]. injection E as -> E.
    destruct (IH b x y E) as [[z [-> ->]]|[z [-> ->]]]; [left|right]; exists z; auto. }
  destruct (X _ _ _ _ E) as [[z [E1 E2]]|[z [E1 E2]]].
  - destruct z as [|h z].
    + rewrite app_nil_r in E1. left. exists p, []. rewrite app_nil_r. auto.
    + right. cbn in E2. injection E2 as <- E2.
      apply (scan_parent g r p (path_of c i) z N C M E1 (path_slash i)).
  - left. exists p, z. split; [exact E1|]. split; [exact M|].
    destruct z as [|h z]; [now left|right]. destruct K as [->|[x ->]]; [discriminate|].
    injection E2 as -> _. eauto.
Qed.
End Glob.

(** ** FilterIter on listings where no directory has to be scanned *)
Section Flt.
Variable c : sctx.
Variable fs0 : list sf.
Hypothesis T0 : Forall tame fs0.
Hypothesis F0 : map reset fs0 = fs0.
Variable L : list (idx * finfo).
Notation DI := (decide_item c fs0).
Hypothesis NoScan : forall x, In x L -> DI x <> Some Doscan.
Hypothesis Hered : forall d x, In d L -> In x L -> item_dir d = true -> prefix (fst d) (fst x) ->
  DI d = Some Exclude -> DI x = Some Exclude.
Definition wanted (x : idx * finfo) : bool := match DI x with Some Include => true | _ => false end.
Definition fast_item (x : idx * finfo) : bool := negb (item_dir x).
(** the branches open, with the directories they belong to *)
Definition opened (bs : list idx) (ds : list (idx * finfo)) : Prop :=
  bs = map fst ds /\ (forall d, In d ds -> In d L /\ item_dir d = true).
Definition excl_of (d : idx * finfo) : bool := match DI d with Some Exclude => true | _ => false end.

Lemma di_cases x : In x L -> DI x = Some Include \/ DI x = Some Exclude.
Proof using T0 NoScan.
  intros H. pose proof (NoScan x H) as NS. 
  assert (RD : rp_data (item_rp c x) <> None) by discriminate.
  pose proof (sel_no_raise c false (item_rp c x) fs0 T0 (or_intror RD) Exclude) as NR.
  unfold decide_item, select_default in *. destruct (fst _) as [[]|]; auto; congruence.
Qed.

Lemma flt_run : forall l last ds s,
  incl l L -> sorted_by fst l -> (forall x, In x l -> idx_lt last (fst x)) ->
  (forall d, In d ds -> In d L /\ item_dir d = true) -> (exists d0 ds0, ds = ds0 ++ [d0] /\ fst d0 = []) ->
  f_excl s = map excl_of ds -> f_queue s = [] -> inv fs0 (idx_lt last) (f_fs s) ->
  exists ev s', itr_run fst fast_item l (mk_itr (Some last) (map fst ds) false) = Some ev /\
    flt_events c s ev = Some s' /\ f_out s' = f_out s ++ filter wanted l.
Proof using All.
  induction l as [|x l IH]; intros last ds s I S Lt Ds Root Ex Q Inv.
  - exists (map End (map fst ds)). cbn [itr_run itr_finish st_index root_fast branches].
    assert (G : forall bs s, f_excl s = f_excl s -> exists s', flt_events c s (map End bs) = Some s' /\ f_out s' = f_out s).
    { induction bs as [|b bs IHb]; intros s0 _; [exists s0; auto|]. cbn [map flt_events flt_event].
      destruct (IHb (mk_flt (tl (f_excl s0)) (f_queue s0) (f_out s0) (f_fs s0)) eq_refl) as [s' [E O]].
      exists s'. split; [exact E|exact O]. }
    destruct (G (map fst ds) s eq_refl) as [s' [E O]]. exists s'. cbn [filter]. rewrite app_nil_r. auto.
  - assert (Hx : In x L) by (apply I; now left).
    pose proof (Lt x (or_introl eq_refl)) as Lx.
    (* the branches finished *)
    assert (FB : exists e1 ds1, finish_branches (A := idx * finfo) (fst x) (map fst ds) = (e1, map fst ds1) /\
       (exists k, ds = k ++ ds1) /\ (exists d0 ds0, ds1 = ds0 ++ [d0] /\ fst d0 = []) /\
       (exists d ds2, ds1 = d :: ds2 /\ prefix (fst d) (fst x)) /\
       forall s, f_excl s = map excl_of ds -> flt_events c s e1 = Some (mk_flt (map excl_of ds1) (f_queue s) (f_out s) (f_fs s))).
    { clear IH Inv Q Ex s. destruct Root as [d0 [ds0 [-> E0]]].
      induction ds0 as [|d ds0 IHd].
      - exists [], [d0]. cbn [app map finish_branches].
        assert (is_prefix (fst d0) (fst x) = true) as -> by (rewrite E0; apply is_prefix_spec; now exists (fst x)).
        split; [reflexivity|]. split; [now exists []|]. split; [now exists d0, []|].
        split; [exists d0, []; split; [reflexivity|]; rewrite E0; now exists (fst x)|].
        intros [ex q o f] E. cbn in *. now rewrite E.
      - cbn [app map finish_branches]. destruct (is_prefix (fst d) (fst x)) eqn:P.
        + exists [], (d :: ds0 ++ [d0]). split; [reflexivity|]. split; [now exists []|].
          split; [now exists d0, (d :: ds0)|]. split; [exists d, (ds0 ++ [d0]); split; [reflexivity|now apply is_prefix_spec]|].
          intros [ex q o f] E. cbn [f_excl flt_events f_queue f_out f_fs] in *. rewrite E. reflexivity.
        + destruct IHd as [e1 [ds1 [E1 [[k Ek] [R1 [R2 R3]]]]]]; [intros; apply Ds; now right|].
          rewrite E1. exists (End (fst d) :: e1), ds1. split; [reflexivity|]. split; [exists (d :: k); now rewrite Ek|].
          split; [exact R1|]. split; [exact R2|]. intros s E. cbn [flt_events flt_event].
          apply (R3 (mk_flt (tl (f_excl s)) (f_queue s) (f_out s) (f_fs s))). cbn [f_excl]. now rewrite E. }
    destruct FB as [e1 [ds1 [EF [[k Ek] [Root1 [[d [ds2 [Ed Pd]]] EV]]]]]].
    assert (Ds1 : forall d, In d ds1 -> In d L /\ item_dir d = true).
    { intros y Hy. apply Ds. rewrite Ek. apply in_or_app; now right. }
    pose proof (di_cases x Hx) as Dx.
    (* the call of the selection functions *)
    destruct Inv as [Ok Rs].
    assert (Pure : fst (select_default c (f_fs s) (item_rp c x)) = DI x).
    { unfold decide_item, select_default. rewrite <- Rs. apply (sel_pure c _ _ (idx_lt last)); [exact Lx|exact Ok]. }
    assert (Ok2 : inv fs0 (idx_lt (fst x)) (snd (select_default c (f_fs s) (item_rp c x)))).
    { split; [|unfold select_default; now rewrite sel_reset].
      apply (sel_ok c (idx_lt last) (idx_lt (fst x))); auto.
      intros j Hj. eapply idx_lt_trans; eauto. }
    assert (Ok3 : inv fs0 (idx_lt (fst x)) (f_fs s)).
    { split; [|exact Rs]. eapply oks_weaken; [|exact Ok]. intros j Hj. eapply idx_lt_trans; eauto. }
    destruct (StronglySorted_inv S) as [S' F'].
    assert (Lt' : forall y, In y l -> idx_lt (fst x) (fst y)) by now apply Forall_forall.
    assert (I' : incl l L) by (intros y Hy; apply I; now right).
    (* one call of the reducer *)
    assert (Cmp : idx_cmp (fst x) last = Gt) by now apply idx_cmp_gt.
    destruct (fast_item x) eqn:Fx.
    + (* a file *)
      assert (Call : itr_call fst fast_item x (mk_itr (Some last) (map fst ds) false) =
                     IOk true (e1 ++ [Fast x]) (mk_itr (Some (fst x)) (map fst ds1) false)).
      { unfold itr_call. cbn [st_index branches root_fast]. rewrite Cmp.
        destruct (map fst ds) eqn:Em; [rewrite Ek, Ed in Em; rewrite map_app in Em; destruct (map fst k); discriminate|].
        rewrite EF, Fx. rewrite Ed. reflexivity. }
      set (s1 := mk_flt (map excl_of ds1) (f_queue s) (f_out s) (f_fs s)).
      assert (Ev : exists s2, flt_event c s1 (Fast x) = Some s2 /\ f_excl s2 = map excl_of ds1 /\ f_queue s2 = [] /\
                  inv fs0 (idx_lt (fst x)) (f_fs s2) /\ f_out s2 = f_out s ++ filter wanted [x]).
      { cbn [flt_event]. unfold s1 at 1; cbn [f_excl]. rewrite Ed. cbn [map].
        unfold excl_of at 1. destruct (DI d) as [[]|] eqn:Ed2.
        1: { exists s1. split; [reflexivity|]. unfold s1; cbn [f_excl f_queue f_fs f_out]. rewrite Ed. cbn [map].
             split; [reflexivity|]. split; [exact Q|]. split; [exact Ok3|]. cbn [filter].
             unfold wanted. rewrite (Hered d x); auto; try (apply Ds1; rewrite Ed; now left).
             now rewrite app_nil_r. }
        all: unfold s1; cbn [f_fs f_excl f_queue f_out];
          destruct (select_default c (f_fs s) (item_rp c x)) as [o fs2] eqn:Es; cbn [fst snd] in *; subst o;
          cbn [filter]; unfold wanted; destruct Dx as [Dx|Dx]; rewrite Dx; eexists; (split; [reflexivity|]);
          cbn [f_excl f_queue f_fs f_out]; rewrite ?Q, ?Ed, ?app_nil_r; cbn [map app]; auto. }
      destruct Ev as [s2 [E2 [X2 [Q2 [I2 O2]]]]].
      destruct (IH (fst x) ds1 s2 I' S' Lt' Ds1 Root1 X2 Q2 I2) as [ev [s' [R [E O]]]].
      exists ((e1 ++ [Fast x]) ++ ev), s'. split; [cbn [itr_run]; rewrite Call, R; reflexivity|]. split.
      * assert (FA : forall a b s, flt_events c s (a ++ b) = match flt_events c s a with Some s' => flt_events c s' b | None => None end).
        { clear. induction a as [|e a IHa]; intros b s; [reflexivity|]. cbn. destruct (flt_event c s e); auto. }
        rewrite !FA, (EV s Ex). fold s1. cbn [flt_events]. rewrite E2. exact E.
      * rewrite O, O2, <- app_assoc. f_equal. cbn [filter]. destruct (wanted x); reflexivity.
    + (* a directory *)
      assert (Dr : item_dir x = true) by (unfold fast_item in Fx; now destruct (item_dir x)).
      assert (Call : itr_call fst fast_item x (mk_itr (Some last) (map fst ds) false) =
                     IOk true (e1 ++ [Start x]) (mk_itr (Some (fst x)) (map fst (x :: ds1)) false)).
      { unfold itr_call. cbn [st_index branches root_fast]. rewrite Cmp.
        destruct (map fst ds) eqn:Em; [rewrite Ek, Ed in Em; rewrite map_app in Em; destruct (map fst k); discriminate|].
        rewrite EF, Fx. rewrite Ed. reflexivity. }
      set (s1 := mk_flt (map excl_of ds1) (f_queue s) (f_out s) (f_fs s)).
      assert (Ev : exists s2, flt_event c s1 (Start x) = Some s2 /\ f_excl s2 = map excl_of (x :: ds1) /\ f_queue s2 = [] /\
                  inv fs0 (idx_lt (fst x)) (f_fs s2) /\ f_out s2 = f_out s ++ filter wanted [x]).
      { cbn [flt_event]. unfold s1; cbn [f_fs f_excl f_queue f_out].
        destruct (select_default c (f_fs s) (item_rp c x)) as [o fs2] eqn:Es; cbn [fst snd] in *; subst o.
        cbn [filter map]. assert (W : wanted x = match DI x with Some Include => true | _ => false end) by reflexivity.
        assert (X : excl_of x = match DI x with Some Exclude => true | _ => false end) by reflexivity.
        rewrite W, X. destruct Dx as [Dx|Dx]; rewrite Dx; eexists; (split; [reflexivity|]);
          cbn [f_excl f_queue f_fs f_out]; rewrite ?Q, ?app_nil_r; cbn [map app]; auto. }
      destruct Ev as [s2 [E2 [X2 [Q2 [I2 O2]]]]].
      assert (Ds' : forall d, In d (x :: ds1) -> In d L /\ item_dir d = true) by (intros y [<-|Hy]; auto).
      assert (Root' : exists d0 ds0, x :: ds1 = ds0 ++ [d0] /\ fst d0 = []).
      { destruct Root1 as [d0 [ds0 [-> E0]]]. now exists d0, (x :: ds0). }
      destruct (IH (fst x) (x :: ds1) s2 I' S' Lt' Ds' Root' X2 Q2 I2) as [ev [s' [R [E O]]]].
      exists ((e1 ++ [Start x]) ++ ev), s'. split; [cbn [itr_run]; rewrite Call, R; reflexivity|]. split.
      * assert (FA : forall a b s, flt_events c s (a ++ b) = match flt_events c s a with Some s' => flt_events c s' b | None => None end).
        { clear. induction a as [|e a IHa]; intros b s; [reflexivity|]. cbn. destruct (flt_event c s e); auto. }
        rewrite !FA, (EV s Ex). fold s1. cbn [flt_events]. rewrite E2. exact E.
      * rewrite O, O2, <- app_assoc. f_equal. cbn [filter]. destruct (wanted x); reflexivity.
Qed.
End Flt.

Lemma located_pre d ch i u : located d ch i u -> exists n t q, In (n, t) ch /\ i = d ++ n :: q.
Proof.
  induction 1 as [d ch n t I A|d ch n t i u I A Dt V IH].
  - exists n, t, []. auto.
  - destruct IH as [m [w [q [_ E]]]]. exists n, t, (m :: q). split; [exact I|]. rewrite E. now rewrite <- app_assoc.
Qed.
Lemma located_split d ch n q w : located d ch (d ++ n :: q) w ->
  exists t, In (n, t) ch /\ (q = [] /\ w = t \/ t_isdir t = true /\ located (d ++ [n]) (t_ch t) (d ++ n :: q) w).
Proof.
  intros H. remember (d ++ n :: q) as j eqn:E. revert E.
  destruct H as [d ch m t Im G|d ch m t i' u' Im G Dm V]; intros E.
  - apply app_inv_head in E. injection E as -> <-. eauto 10.
  - destruct (located_pre _ _ _ _ V) as [k [x [q' [_ E2]]]].
    rewrite E2, <- app_assoc in E. apply app_inv_head in E. injection E as <- _. eauto 10.
Qed.
Lemma nodup_names {A} (ch : list (bytes * A)) n t t' : NoDup (map fst ch) -> In (n, t) ch -> In (n, t') ch -> t = t'.
Proof.
  induction ch as [|[m x] ch IH]; cbn; intros N; [tauto|]. inversion N as [|? ? N1 N2]; subst.
  intros [[= -> ->]|H1] [[= E]|H2]; subst; auto.
  - destruct N1. apply in_map_iff. now exists (n, t').
  - destruct N1. apply in_map_iff. now exists (n, t).
Qed.
Lemma located_above d ch i u : located d ch i u -> NoDup (map fst ch) -> Forall (fun x => wf_tree (snd x)) ch ->
  forall q w, q <> [] -> located d ch (i ++ q) w -> t_isdir u = true.
Proof.
  induction 1 as [d ch n t I G|d ch n t i u I G Dt V IH]; intros Nd Fa q w Q L2.
  - rewrite <- app_assoc in L2. cbn [app] in L2. destruct (located_split _ _ _ _ _ L2) as [t' [I' [[-> _]|[Dt _]]]]; [congruence|].
    now rewrite (nodup_names ch n t t' Nd I I').
  - destruct (located_pre _ _ _ _ V) as [m [x [q' [_ ->]]]].
    assert (E : ((d ++ [n]) ++ m :: q') ++ q = d ++ n :: (m :: q' ++ q)) by (rewrite <- !app_assoc; reflexivity).
    rewrite E in L2. destruct (located_split _ _ _ _ _ L2) as [t' [I' [[X _]|[_ L3]]]]; [discriminate|].
    rewrite <- (nodup_names ch n t t' Nd I I') in L3. rewrite <- E in L3.
    rewrite Forall_forall in Fa. specialize (Fa _ I). cbn in Fa. inversion Fa as [i0 ch0 N0 F0]; subst.
    eapply IH; eauto.
Qed.
