(** * C75: what the options select is what can be restored *)
From Coq Require Import List ZArith Bool Ascii Lia Sorting.Sorted.
From Verif Require Import Base L_Base M_Iter L_Iter L_Tree L_Lookup P_Iter M_Core P_Core M_MetaMgr M_Global S_Global L_Global P_Global
  M_Select S_Select L_Select L_Glob L_Select2 P_Select S_Glob P_Glob S_SelRestore.
Import List ListNotations.

(** ** The iteration doesn't depend on the bound of its steps *)
Lemma iter_run_more c n : forall m s x, (n <= m)%nat -> iter_run c n s = Some x -> iter_run c m s = Some x.
Proof.
  induction n as [|n IH]; intros m s x L H; [discriminate|]. destruct m as [|m]; [lia|]. cbn [iter_run] in *.
  destruct (iter_step c s) as [| |out s']; auto.
  destruct (iter_run c n s') as [y|] eqn:E; [|discriminate]. rewrite (IH m s' y ltac:(lia) E). exact H.
Qed.
Lemma select_iter_more c fs root n m x : (n <= m)%nat -> select_iter c n fs root = Some x -> select_iter c m fs root = Some x.
Proof.
  unfold select_iter. intros L. destruct (t_isdir root); [|auto].
  destruct (iter_run c n _) as [y|] eqn:E; [|discriminate]. now rewrite (iter_run_more c n m _ y L E).
Qed.
Lemma select_iter_same c fs root n m x y : select_iter c n fs root = Some x -> select_iter c m fs root = Some y -> x = y.
Proof.
  intros H1 H2. apply (select_iter_more c fs root n (n + m)) in H1; [|lia]. apply (select_iter_more c fs root m (n + m)) in H2; [|lia]. congruence.
Qed.

(** ** Sorted lists *)
Lemma sorted_same {A} (key : A -> idx) l1 : forall l2, sorted_by key l1 -> sorted_by key l2 ->
  (forall x, In x l1 <-> In x l2) -> l1 = l2.
Proof.
  induction l1 as [|x l1 IH]; intros [|y l2] S1 S2 H; auto.
  - destruct (proj2 (H y) (or_introl eq_refl)).
  - destruct (proj1 (H x) (or_introl eq_refl)).
  - pose proof (sorted_inv _ _ _ S1) as [S1' F1]. pose proof (sorted_inv _ _ _ S2) as [S2' F2].
    assert (x = y) as <-.
    { destruct (proj1 (H x) (or_introl eq_refl)) as [E|I1]; [now symmetry|].
      destruct (proj2 (H y) (or_introl eq_refl)) as [E|I2]; [exact E|]. exfalso.
      apply idx_lt_irrefl with (x := key x). eapply idx_lt_trans; [apply F1, I2|apply F2, I1]. }
    f_equal. apply IH; auto. intros z. split; intros Hz.
    + destruct (proj1 (H z) (or_intror Hz)) as [<-|I]; [|exact I]. exfalso. apply (idx_lt_irrefl (key x)), F1, Hz.
    + destruct (proj2 (H z) (or_intror Hz)) as [<-|I]; [|exact I]. exfalso. apply (idx_lt_irrefl (key x)), F2, Hz.
Qed.

Lemma sorted_map_fst {A B} (f : idx * A -> B) l : sorted_by fst l -> sorted_by fst (map (fun x => (fst x, f x)) l).
Proof.
  induction 1 as [|x l S IH F]; [constructor|]. cbn [map]. constructor; [exact IH|].
  apply Forall_forall. intros y Hy. apply in_map_iff in Hy as (z & <- & Hz). rewrite Forall_forall in F. exact (F z Hz).
Qed.

(** ** The source of a session *)
Lemma iteration_ok s fs : proper s fs -> exists n out, select_iter (s_ctx s) n fs (s_root s) = Some (Some out) /\
  listing fst out /\ forall p t, In (p, t) out <-> is_selected s fs p t.
Proof.
  intros (P & T & W). destruct (t_isdir (s_root s)) eqn:D.
  - destruct (C17_tree_selection _ _ _ _ _ _ P T W D) as (n & o & E & Li & Ch). exists n, (([], s_root s) :: o).
    split; [exact E|]. split; [exact Li|]. intros p t. unfold is_selected. rewrite D. cbn [In]. rewrite Ch. split.
    + intros [Eq|H]; [injection Eq as <- <-; now left|right; now split].
    + intros [[-> ->]|[_ H]]; [now left|now right].
  - exists O, [([], s_root s)]. split; [now apply C17_single_file|]. split; [repeat constructor|].
    intros p t. unfold is_selected. rewrite D. cbn [In]. split.
    + intros [Eq|[]]. injection Eq as <- <-. now left.
    + intros [[-> ->]|[H _]]; [now left|discriminate].
Qed.
Lemma source_listing {attr} s fs (state : idx -> ftree -> node attr) src : proper s fs -> source_of s fs state src ->
  listing fst src /\ (forall p t, is_selected s fs p t -> In (p, state p t) src) /\
  (forall p n, In (p, n) src -> exists t, is_selected s fs p t /\ n = state p t).
Proof.
  intros P (n & out & E & ->). destruct (iteration_ok s fs P) as (m & out' & E' & Li & In_). 
  assert (out' = out) as -> by (pose proof (select_iter_same _ _ _ _ _ _ _ E E') as X; congruence).
  repeat split.
  - apply listing_sorted. apply listing_sorted in Li. now apply sorted_map_fst.
  - intros p t H. apply In_ in H. apply in_map_iff. now exists (p, t).
  - intros p x H. apply in_map_iff in H as ([q t] & Eq & H). cbn [fst snd] in Eq. injection Eq as <- <-. exists t. split; [now apply In_|reflexivity].
Qed.

Section Held.
Context {attr : Type}.
Variable delta : bytes -> bytes -> bytes.
Variable patch : bytes -> bytes -> option bytes.
Variable sha1 : attr -> bytes -> option bytes.
Variables same loose : attr -> attr -> bool.
Variable deq : meta attr -> meta attr -> bool.
Hypothesis deq_ok : forall x y, deq x y = true <-> x = y.
Notation grun := (grun delta patch sha1 same loose deq).

(** A session with a source which was selected can always be made: it meets the condition
    of the histories of C44. *)
Theorem C75_session_possible : forall s fs (state : idx -> ftree -> node attr) src,
  proper s fs -> source_of s fs state src ->
  (forall t o zd, well_formed (GSession t src o zd)) /\
  (forall p t, is_selected s fs p t -> node_at src p = state p t) /\
  (forall p, (forall t, ~ is_selected s fs p t) -> node_at src p = Absent).
Proof.
  intros s fs state src P E. destruct (source_listing s fs state src P E) as (Li & I & J).
  pose proof (proj1 (listing_sorted _ _) Li) as So. repeat split.
  - intros t o zd. unfold well_formed. cbn [trees_of]. now constructor.
  - intros p t H. rewrite node_at_key. pose proof (find_key_in fst src (p, state p t) So (I p t H)) as X. cbn [fst] in X. now rewrite X.
  - intros p H. rewrite node_at_key. rewrite (proj2 (find_key_none fst p src)); [reflexivity|]. intros [q x] Hx Eq. cbn in Eq. subst q.
    destruct (J p x Hx) as (t & Ht & _). exact (H t Ht).
Qed.

(** Whatever the history of the repository, and whatever options its sessions had: a
    session which is held is restored with the selected files in the state they were found
    then, and nothing else. *)
Theorem C75_restored_is_selected : forall evs r, grun evs r -> fine delta patch sha1 same loose evs ->
  forall t src o, In (t, src, o) (held evs) ->
  forall s fs (state : idx -> ftree -> node attr), proper s fs -> source_of s fs state src ->
  exists l, restore_tree patch t [] r = Some l /\ listing fst l /\
    (forall p f, is_selected s fs p f -> updated (o p) -> same_state same (state p f) (node_at l p)) /\
    (forall p, (forall f, ~ is_selected s fs p f) -> updated (o p) -> ~ In p (map fst l)).
Proof.
  intros evs r G F t src o H s fs state P E.
  destruct (C44_every_held_session_restored attr delta patch sha1 same loose deq deq_ok evs r G F t src o H) as (l & R & Li & Na & Al).
  destruct (C75_session_possible s fs state src P E) as (_ & S1 & S2).
  exists l. split; [exact R|]. split; [exact Li|]. split.
  - intros p f Hs U. rewrite <- (S1 p f Hs). now apply Al.
  - intros p Hn U Hi. specialize (Al p U). rewrite (S2 p Hn) in Al.
    apply in_map_iff in Hi as ([q n] & Eq & Hi). cbn in Eq. subst q.
    assert (X : node_at l p = n) by (rewrite node_at_key; pose proof (find_key_in fst l (p, n) (proj1 (listing_sorted _ _) Li) Hi) as X; cbn [fst] in X; now rewrite X).
    rewrite X in Al. pose proof (Na _ Hi) as Hn'. cbn in Hn'. destruct n; auto.
Qed.
End Held.
Print Assumptions C75_session_possible.
Print Assumptions C75_restored_is_selected.

(** ** Options which only exclude *)
Section Excl.
Variable c : sctx.
Definition entry (i : idx) (u : finfo) : srp := mk_srp i (path_of c i) (Some u).
Definition is_dir (u : finfo) : Prop := match fi_kind u with KDir _ => True | _ => False end.
Definition only (f : sf) : Prop := forall rp, says c f rp = Says None \/ says c f rp = Says (Some Exclude).
Definition sinks (f : sf) : Prop := forall j q u v, is_dir u -> ~ In nl (path_of c (j ++ q)) ->
  says c f (entry j u) = Says (Some Exclude) -> says c f (entry (j ++ q) v) = Says (Some Exclude).
Lemma path_prefix j q : exists s, path_of c (j ++ q) = path_of c j ++ s /\ (s = [] \/ exists r, s = slash :: r).
Proof.
  destruct q as [|n q]; [exists []; rewrite !app_nil_r; split; auto|].
  destruct (path_below c j (n :: q)) as [s E]; [discriminate|]. exists (slash :: s). split; eauto.
Qed.
Lemma glob_excl g f : glob_sf c g false = Some f -> only f /\ sinks f.
Proof.
  intros E. destruct (looks_like_glob g) eqn:L.
  - destruct (beq_bytes g (bs "**")) eqn:B.
    + unfold glob_sf in E. rewrite B in E. injection E as <-. split; [now right|]. intros j q u v _ _ _. reflexivity.
    + assert (N : g <> bs "**") by (intros ->; now rewrite beq_bytes_refl in B).
      destruct (C16_pattern_readable (snd (pattern_of g))) as [ps R]. split.
      * intros rp. unfold glob_sf in E. rewrite B, L in E. cbn [negb] in E. destruct (glob_build g) as [r|]; [|discriminate].
        destruct (_ || _); [|discriminate]. injection E as <-. unfold says. cbn [call fst andb]. destruct (glob_hit r _); [now right|now left].
      * intros j q u v _ NL Ex.
        assert (NLj : ~ In nl (path_of c j)).
        { destruct (path_prefix j q) as (s & -> & _) in NL. intros H. apply NL, in_or_app. now left. }
        pose proof (C16_any_glob c g false f (entry j u) ps L N E) as A. pose proof (C16_any_glob c g false f (entry (j ++ q) v) ps L N E) as A'.
        destruct (pattern_of g) as [ic g']. cbn [snd] in R. destruct (A R NLj) as [A1 _]. destruct (A' R NL) as [A1' _].
        apply A1'. apply A1 in Ex. destruct Ex as (p & rest & E1 & M & T). cbn [entry rp_path] in *.
        destruct (path_prefix j q) as (s & -> & Hs). rewrite E1. exists p, (rest ++ s). split; [now rewrite app_assoc|]. split; [exact M|].
        destruct T as [->|[r ->]]; [exact Hs|]. right. eexists. reflexivity.
  - unfold glob_sf in E. destruct (beq_bytes g (bs "**")) eqn:B.
    + injection E as <-. split; [now right|]. intros j q u v _ _ _. reflexivity.
    + rewrite L in E. cbn [negb] in E. destruct (relative_index c g) as [t|]; [|discriminate]. injection E as <-. split.
      * intros rp. unfold says. cbn [call fst]. unfold says_if. destruct (is_prefix _ _); [now right|now left].
      * intros j q u v _ _. unfold says. cbn [call fst entry rp_index]. unfold says_if.
        destruct (is_prefix t j) eqn:P; [|discriminate]. intros _. apply is_prefix_spec in P as [r ->].
        replace (is_prefix t ((t ++ r) ++ q)) with true; [reflexivity|]. symmetry. apply is_prefix_spec. exists (r ++ q). now rewrite app_assoc.
Qed.
Lemma opt_excl ri ns o l : excluding c ns o -> opt_sfs c ri ns o = Some l -> forall f, In f l -> only f /\ sinks f /\ tame f.
Proof.
  intros X E f Hf. destruct o; cbn [excluding opt_sfs] in *; try contradiction.
  - subst inc. destruct (glob_sf c g false) as [f'|] eqn:G; [|discriminate]. injection E as <-. destruct Hf as [<-|[]].
    destruct (glob_excl g f' G). repeat split; auto. eapply glob_sf_fresh; eauto.
  - subst inc. injection E as <-. destruct Hf as [<-|[]]. repeat split.
    + intros rp. unfold says. cbn [call fst]. unfold says_if. destruct (eval_pred p rp); [now right|now left].
    + intros j q u v D _. unfold says. cbn [call fst]. unfold says_if.
      assert (F : eval_pred p (entry j u) = false).
      { unfold is_dir in D. unfold eval_pred, entry, rp_issym, rp_issock, rp_isfifo, rp_isdev. cbn [rp_data]. destruct (fi_kind u); try contradiction. now destruct p. }
      rewrite F. discriminate.
  - destruct (0 <? size)%Z; [|discriminate]. injection E as <-. destruct Hf as [<-|[]]. repeat split.
    + intros rp. unfold says. cbn [call fst]. destruct (rp_isreg rp); [|now left]. destruct (if ismax then _ else _); [now left|now right].
    + intros j q u v D _. unfold says. cbn [call fst]. unfold is_dir in D. unfold rp_isreg, entry. cbn [rp_data]. destruct (fi_kind u); try contradiction. discriminate.
  - destruct X as [-> X]. injection E as <-. destruct Hf as [<-|[]].
    repeat split.
    + intros rp. destruct (C16_exclude_list c ns content rp X) as [A B].
      destruct (existsb (fun e => is_prefix (fst e) (rp_index rp)) (filelist_read c false (list_lines ns content))) eqn:Ex.
      * right. apply A. apply existsb_exists in Ex as (e & I & P). exists e. split; [exact I|]. now apply is_prefix_spec.
      * left. apply B. intros (e & I & P). apply is_prefix_spec in P.
        assert (existsb (fun e => is_prefix (fst e) (rp_index rp)) (filelist_read c false (list_lines ns content)) = true) by (apply existsb_exists; eauto).
        congruence.
    + intros j q u v _ _ H. apply (proj1 (C16_exclude_list c ns content (entry j u) X)) in H.
      apply (proj1 (C16_exclude_list c ns content (entry (j ++ q) v) X)). destruct H as (e & I & [r P]). exists e. split; [exact I|].
      cbn [entry rp_index] in *. exists (r ++ q). now rewrite P, app_assoc.
    + cbn [tame filelist_sf]. right. intros p Hp. apply X. revert Hp. apply Permutation.Permutation_in, sort_pairs_perm.
  - revert l E Hf. induction (list_lines ns content) as [|ln lns IH]; cbn [map all_some]; intros l E Hf; [injection E as <-; destruct Hf|].
    pose proof (X ln (or_introl eq_refl)) as Xl. destruct (plus_minus ln inc) as [g b]. cbn [snd] in Xl. subst b.
    destruct (glob_sf c g false) as [f'|] eqn:G; [|discriminate]. destruct (all_some _) as [l'|]; [|discriminate]. cbn in E. injection E as <-.
    destruct Hf as [<-|Hf]; [|now apply (IH (fun x Hx => X x (or_intror Hx)) l')].
    destruct (glob_excl g f' G). repeat split; auto. eapply glob_sf_fresh; eauto.
Qed.

Lemma all_excl ri ns opts fs : Forall (excluding c ns) opts -> parse_selection_args c ri ns opts = Some fs ->
  forall f, In f fs -> only f /\ sinks f /\ tame f.
Proof.
  intros X E. unfold parse_selection_args in E. destruct (concat_some _) as [l|] eqn:C; [|discriminate].
  destruct (last_excludes l); [|discriminate]. injection E as <-. intros f [<-|Hf].
  - repeat split.
    + intros rp. unfold says, rbdir_sf. cbn [call fst]. unfold says_if. destruct (is_prefix _ _); [now right|now left].
    + intros j q u v _ _. unfold says, rbdir_sf. cbn [call fst entry rp_index]. unfold says_if.
      destruct (is_prefix [rbdir] j) eqn:P; [|discriminate]. intros _. apply is_prefix_spec in P as [r ->].
      replace (is_prefix [rbdir] (([rbdir] ++ r) ++ q)) with true; [reflexivity|]. symmetry. apply is_prefix_spec. exists (r ++ q). now rewrite app_assoc.
  - revert l C Hf. induction X as [|o opts Xo X IH]; cbn [map concat_some]; intros l C Hf; [injection C as <-; destruct Hf|].
    destruct (opt_sfs c ri ns o) as [lo|] eqn:Eo; [|discriminate]. destruct (concat_some _) as [l'|]; [|discriminate]. cbn in C. injection C as <-.
    apply in_app_or in Hf as [Hf|Hf]; [exact (opt_excl ri ns o lo Xo Eo f Hf)|exact (IH l' eq_refl Hf)].
Qed.
(** what the options say together *)
Lemma excl_decision fs rp : (forall f, In f fs -> only f) ->
  (fst (select_default c fs rp) = Some Exclude /\ (exists f, In f fs /\ says c f rp = Says (Some Exclude))) \/
  (fst (select_default c fs rp) = Some Include /\ forall f, In f fs -> says c f rp = Says None).
Proof.
  intros O. assert (H : (exists pre f post, fs = pre ++ f :: post /\ Forall (fun g => says c g rp = Says None) pre /\ says c f rp = Says (Some Exclude)) \/
    Forall (fun g => says c g rp = Says None) fs).
  { clear -O. induction fs as [|f fs IH]; [right; constructor|]. destruct (O f (or_introl eq_refl) rp) as [N|N].
    - destruct (IH (fun g Hg => O g (or_intror Hg))) as [(pre & f' & post & -> & P & E)|A].
      + left. exists (f :: pre), f', post. repeat split; auto.
      + right. now constructor.
    - left. exists [], f, fs. repeat split; auto. }
  assert (U : forall l, Forall (fun g => says c g rp = Says None) l -> Forall (fun g => undecided (says c g rp)) l)
    by (intros l; apply Forall_impl; intros g Hg; now left).
  destruct H as [(pre & f & post & -> & P & E)|A].
  - left. split; [|exists f; split; [apply in_or_app; right; now left|exact E]]. apply C16_first_match_decides. left.
    exists pre, f, post. repeat split; auto. right. split; [exact E|]. right. split; [reflexivity|].
    intros X. apply Exists_exists in X as (g & Hg & Eg). rewrite Forall_forall in P. rewrite (P g Hg) in Eg. discriminate.
  - right. split; [|now apply Forall_forall]. apply C16_first_match_decides. right. split; [now apply U|reflexivity].
Qed.
End Excl.

(** The entries below a directory are chosen one by one when nothing is only scanned and
    excluding a directory excludes what lies in it. *)
Section Chosen.
Variable D : decision.
Hypothesis D2 : forall i t, D i t = Some Include \/ D i t = Some Exclude.
Lemma visited_located d ch i t : visited D d ch i t -> located d ch i t /\ D i t = Some Include.
Proof.
  induction 1 as [d ch n t Hin [G A]|d ch n t i u Hin [G A] Dr V [IH1 IH2]].
  - split; [now constructor|]. destruct A as [A|[A _]]; [exact A|]. destruct (D2 (d ++ [n]) t); congruence.
  - split; [now apply (L_below d ch n t i u)|exact IH2].
Qed.
Lemma located_visited d ch i t : located d ch i t ->
  (forall j u q v, located d ch j u -> located d ch (j ++ q) v -> t_isdir u = true -> D j u = Some Exclude -> D (j ++ q) v = Some Exclude) ->
  D i t = Some Include -> visited D d ch i t.
Proof.
  assert (Pre : forall d ch i t, located d ch i t -> exists q, i = d ++ q).
  { induction 1 as [d' ch' n t' |d' ch' n t' i' u Hin G Dr L' [q ->]]; [eexists; reflexivity|]. rewrite <- app_assoc. eexists; reflexivity. }
  induction 1 as [d ch n t Hin G|d ch n t i u Hin G Dr L' IH]; intros Dn I.
  - constructor; [exact Hin|]. split; [exact G|now left].
  - assert (A : D (d ++ [n]) t = Some Include).
    { destruct (D2 (d ++ [n]) t) as [A|A]; [exact A|]. exfalso. destruct (Pre _ _ _ _ L') as [q ->].
      rewrite (Dn (d ++ [n]) t q u) in I; auto; [discriminate|now constructor|now apply (L_below d ch n t)]. }
    apply (V_below D d ch n t i u); auto; [split; [exact G|now left]|]. apply IH; [|exact I].
    intros j w q v Lj Lq. apply Dn; now apply (L_below d ch n t).
Qed.
End Chosen.

(** Excluding when a backup is made, or when everything has been backed up and it is
    restored, gives the same: with options which only exclude, what the iteration over the
    directory tree yields is what the filter of the restore leaves of the whole listing,
    namely the files which no option excludes. *)
Theorem C75_exclude_early_or_late : forall s ri0 fs fs0,
  Forall (excluding (s_ctx s) (s_null s)) (s_opts s) ->
  parse_selection_args (s_ctx s) (t_info (s_root s)) (s_null s) (s_opts s) = Some fs ->
  parse_selection_args (s_ctx s) ri0 (s_null s) [] = Some fs0 ->
  wf_tree (s_root s) -> t_isdir (s_root s) = true ->
  decide (s_ctx s) fs [] (s_root s) = Some Include ->
  (forall i t, located [] (t_ch (s_root s)) i t -> ~ In nl (path_of (s_ctx s) i)) ->
  exists n all some,
    select_iter (s_ctx s) n fs0 (s_root s) = Some (Some all) /\
    select_iter (s_ctx s) n fs (s_root s) = Some (Some some) /\
    filter_iter (s_ctx s) fs (map info_of all) = Some (map info_of some) /\
    forall x, In x some <-> In x all /\ forall f, In f fs -> says (s_ctx s) f (real_rp (s_ctx s) (fst x) (snd x)) = Says None.
Proof.
  intros [c ns opts root] ri0 fs fs0 X P P0 W Dr Rt NL. cbn [s_ctx s_null s_opts s_root] in *.
  pose proof (all_excl c _ ns opts fs X P) as A.
  assert (A0 : forall f, In f fs0 -> only c f /\ sinks c f /\ tame f) by (apply (all_excl c ri0 ns [] fs0); [constructor|exact P0]).
  assert (T : Forall tame fs) by (apply Forall_forall; intros f Hf; now apply A).
  assert (T0 : Forall tame fs0) by (apply Forall_forall; intros f Hf; now apply A0).
  destruct (C17_tree_selection c _ ns opts fs root P T W Dr) as (n1 & o1 & E1 & Li1 & Ch1).
  destruct (C17_tree_selection c _ ns [] fs0 root P0 T0 W Dr) as (n2 & o2 & E2 & Li2 & Ch2).
  assert (D2 : forall g, (forall f, In f g -> only c f /\ sinks c f /\ tame f) -> forall i t, decide c g i t = Some Include \/ decide c g i t = Some Exclude).
  { intros g Hg i t. unfold decide. destruct (excl_decision c g (real_rp c i t) (fun f Hf => proj1 (Hg f Hf))) as [[E _]|[E _]]; auto. }
  assert (Down : forall g, (forall f, In f g -> only c f /\ sinks c f /\ tame f) -> forall j u q v,
     t_isdir u = true -> ~ In nl (path_of c (j ++ q)) -> decide c g j u = Some Exclude -> decide c g (j ++ q) v = Some Exclude).
  { intros g Hg j u q v Du N E. unfold decide in *.
    destruct (excl_decision c g (real_rp c j u) (fun f Hf => proj1 (Hg f Hf))) as [[_ (f & Hf & Ef)]|[E' _]]; [|congruence].
    destruct (excl_decision c g (real_rp c (j ++ q) v) (fun f Hf => proj1 (Hg f Hf))) as [[E' _]|[_ No]]; [exact E'|].
    assert (Y : says c f (real_rp c (j ++ q) v) = Says (Some Exclude)).
    { apply (proj1 (proj2 (Hg f Hf)) j q (t_info u) (t_info v)); auto. unfold is_dir. unfold t_isdir in Du. now destruct (fi_kind (t_info u)). }
    rewrite (No f Hf) in Y. discriminate. }
  (* chosen = located and not excluded *)
  assert (Ch : forall g, (forall f, In f g -> only c f /\ sinks c f /\ tame f) -> forall i t,
     chosen (decide c g) [] (t_ch root) i t <-> located [] (t_ch root) i t /\ decide c g i t = Some Include).
  { intros g Hg i t. split.
    - intros [V _]. exact (visited_located _ (D2 g Hg) _ _ _ _ V).
    - intros [L I]. split; [|now left]. apply (located_visited _ (D2 g Hg)); auto.
      intros j u q v _ Lq Du. apply (Down g Hg); auto. exact (NL _ _ Lq). }
  exists (n1 + n2)%nat, (([], root) :: o2), (([], root) :: o1).
  split; [apply (select_iter_more c fs0 root n2); [lia|exact E2]|].
  split; [apply (select_iter_more c fs root n1); [lia|exact E1]|].
  assert (In0 : forall i t, In (i, t) o2 -> located [] (t_ch root) i t) by (intros i t H; apply Ch2 in H; now apply (Ch fs0 A0) in H).
  assert (Some_ : forall x, In x (([], root) :: o1) <-> In x (([], root) :: o2) /\ decide c fs (fst x) (snd x) = Some Include).
  { intros [i t]. cbn [In fst snd]. rewrite Ch1, Ch2, (Ch fs A), (Ch fs0 A0). split.
    - intros [Eq|[L I]]; [injection Eq as <- <-; split; auto|]. split; [|exact I]. right. split; [exact L|].
      destruct (D2 fs0 A0 i t) as [H|H]; [exact H|]. exfalso.
      (* fs0 is the exclusion of the repository's data only *)
      cbn in P0. injection P0 as <-. unfold decide in H, I.
      destruct (excl_decision c [rbdir_sf] (real_rp c i t) (fun f Hf => proj1 (A0 f Hf))) as [[_ (f & [<-|[]] & Ef)]|[H' _]]; [|congruence].
      assert (Hr : In rbdir_sf fs).
      { unfold parse_selection_args in P. destruct (concat_some _) as [l|]; [|discriminate]. destruct (last_excludes l); [|discriminate]. injection P as <-. now left. }
      destruct (excl_decision c fs (real_rp c i t) (fun f Hf => proj1 (A f Hf))) as [[H' _]|[_ No]]; [congruence|].
      rewrite (No _ Hr) in Ef. discriminate.
    - intros [[Eq|[L _]] I]; [now left|]. right. now split. }
  assert (Lf : listing fst (map info_of (([], root) :: o2))).
  { apply listing_sorted. apply listing_sorted in Li2. exact (sorted_map_fst (fun x => t_info (snd x)) _ Li2). }
  assert (DI : forall x, decide_item c fs (info_of x) = decide c fs (fst x) (snd x)) by reflexivity.
  split.
  - change (map info_of (([], root) :: o2)) with (info_of ([], root) :: map info_of o2) in *.
    rewrite (C17_filter c fs (info_of ([], root)) (map info_of o2)); auto.
    + f_equal. change (info_of ([], root) :: map info_of o2) with (map info_of (([], root) :: o2)).
      assert (Fm : forall l, filter (fun x => match decide_item c fs x with Some Include => true | _ => false end) (map info_of l) =
        map info_of (filter (fun x => match decide c fs (fst x) (snd x) with Some Include => true | _ => false end) l)).
      { induction l as [|x l IH]; [reflexivity|]. cbn [map filter]. rewrite DI, IH. now destruct (match decide c fs (fst x) (snd x) with Some Include => true | _ => false end). }
      rewrite Fm. f_equal. apply (sorted_same fst).
      * apply listing_sorted in Li2. revert Li2. generalize (([], root) :: o2) as l. intros l Sl.
        induction Sl as [|x l Sl IH F]; [constructor|]. cbn [filter]. destruct (match decide c fs (fst x) (snd x) with Some Include => true | _ => false end); [|exact IH].
        constructor; [exact IH|]. apply Forall_forall. intros y Hy. apply filter_In in Hy as [Hy _]. rewrite Forall_forall in F. now apply F.
      * now apply listing_sorted.
      * intros x. pose proof (Some_ x) as Sx. rewrite filter_In, Sx. clear. unfold idx in x |- *.
        destruct (decide c fs (fst x) (snd x)) as [[| |]|]; split; intros [H1 H2]; split; try exact H1; congruence.
    + exact (parse_fresh _ _ _ _ _ P).
    + intros x Hx. change (info_of ([], root) :: map info_of o2) with (map info_of (([], root) :: o2)) in Hx.
      apply in_map_iff in Hx as (y & <- & _). rewrite DI. destruct (D2 fs A (fst y) (snd y)); congruence.
    + intros d x Hd Hx Di In_ Ex. change (info_of ([], root) :: map info_of o2) with (map info_of (([], root) :: o2)) in Hd, Hx.
      apply in_map_iff in Hd as ([i t] & <- & Hd). apply in_map_iff in Hx as ([j u] & <- & Hx). rewrite DI in *. cbn [fst snd info_of] in *.
      destruct In_ as [q ->]. destruct Hx as [Eq|Hx].
      { injection Eq as Eq <-. symmetry in Eq. apply app_eq_nil in Eq as [-> ->]. destruct Hd as [Eq|Hd].
        - injection Eq as <-. exact Ex.
        - exfalso. apply listing_sorted, sorted_inv in Li2 as [_ F]. specialize (F _ Hd). cbn in F. now apply idx_lt_irrefl in F. }
      apply (Down fs A i t q u); auto. exact (NL _ _ (In0 _ _ Hx)).
  - intros x. rewrite Some_. split; intros [H1 H2]; (split; [exact H1|]); unfold decide in *. unfold idx in *.
    + destruct (excl_decision c fs (real_rp c (fst x) (snd x)) (fun f Hf => proj1 (A f Hf))) as [[E' _]|[_ No]]; [congruence|exact No].
    + destruct (excl_decision c fs (real_rp c (fst x) (snd x)) (fun f Hf => proj1 (A f Hf))) as [[_ (f & Hf & Ef)]|[E' _]]; [|exact E'].
      rewrite (H2 f Hf) in Ef. discriminate.
Qed.
Print Assumptions C75_exclude_early_or_late.

(** ** Examples: the hypotheses are met *)
Definition ex_sel : selection := mk_selection ctx0 false [OGlob (bs "/b/**.py") true; OGlob (bs "**") false] tree1.
Definition ex_fs : list sf := match parse_selection_args ctx0 (t_info tree1) false (s_opts ex_sel) with Some fs => fs | None => [] end.
Definition ex_state (p : idx) (t : ftree) : node Z := if t_isdir t then Dir 1%Z else Reg (join_with [slash] p) 1%Z.
Definition ex_source : @tree Z := map (fun p => (p, if existsb (idx_eqb p) [[]; [bs "a"]; [bs "a"; bs "e"]; [bs "x"]] then Dir 1%Z else Reg (join_with [slash] p) 1%Z))
  [[]; [bs "a"]; [bs "a"; bs "e"]; [bs "a"; bs "e"; bs "m.py"]; [bs "x"]; [bs "x"; bs "p.py"]].
Example ex_sel_ok : proper ex_sel ex_fs /\ source_of ex_sel ex_fs ex_state ex_source.
Proof.
  split.
  - split; [vm_compute; reflexivity|]. split; [repeat constructor|]. exact (proj2 (proj2 (proj2 select_ex_hyps))).
  - exists 100%nat. unfold ex_source. eexists. split; [vm_compute; reflexivity|]. vm_compute. reflexivity.
Qed.
(** a session with this source, after one with another, is restored *)
Example ex_sel_restored : restore_tree spatch 20 [] (get_repo (zsession 20 ex_source ok_all nz r1)) = Some ex_source.
Proof. vm_compute. reflexivity. Qed.

Fixpoint clean (t : ftree) : bool :=
  let 'FT _ ch := t in forallb (fun x => negb (existsb (Ascii.eqb nl) (fst x)) && clean (snd x)) ch.
Lemma join_clean c0 i : ~ In nl c0 -> (forall n, In n i -> ~ In nl n) -> ~ In nl (join_with [slash] (c0 :: i)).
Proof.
  revert c0; induction i as [|n i IH]; intros c0 H0 H; [exact H0|].
  change (join_with [slash] (c0 :: n :: i)) with (c0 ++ slash :: join_with [slash] (n :: i)).
  intros X. apply in_app_or in X as [X|[X|X]]; [auto|discriminate X|]. revert X. apply IH; [apply H; now left|intros m Hm; apply H; now right].
Qed.
Lemma located_clean c d ch i t : located d ch i t -> forallb (fun x => negb (existsb (Ascii.eqb nl) (fst x)) && clean (snd x)) ch = true ->
  (forall n, In n d -> ~ In nl n) -> ~ In nl (c_base c) -> ~ In nl (path_of c i).
Proof.
  assert (G : forall d ch i t, located d ch i t -> forallb (fun x => negb (existsb (Ascii.eqb nl) (fst x)) && clean (snd x)) ch = true ->
    (forall n, In n d -> ~ In nl n) -> forall n, In n i -> ~ In nl n).
  { clear. assert (N : forall n : bytes, negb (existsb (Ascii.eqb nl) n) = true -> ~ In nl n).
    { intros n E H. apply negb_true_iff in E. assert (X : existsb (Ascii.eqb nl) n = true) by (apply existsb_exists; exists nl; split; [exact H|apply Ascii.eqb_refl]). congruence. }
    induction 1 as [d ch n t Hin Gn|d ch n t i u Hin Gn Dr L IH]; intros C Hd m Hm; rewrite forallb_forall in C;
      specialize (C _ Hin); apply andb_true_iff in C as [C1 C2]; cbn [fst snd] in *.
    - apply in_app_or in Hm as [Hm|[<-|[]]]; auto.
    - destruct t as [inf ch']. apply (IH C2); [|exact Hm]. intros x Hx. apply in_app_or in Hx as [Hx|[<-|[]]]; auto. }
  intros L C Hd Hb. unfold path_of. apply join_clean; [exact Hb|]. exact (G d ch i t L C Hd).
Qed.
Definition ex_excl : list sopt :=
  [OGlob (bs "/b/a") false; OGlob (bs "/b/**.py") false; OSize 4 false; OPred PSym false; OFilelist (bs "/b/y") false;
   OGlobFilelist (bs "/b/q?
- /b/r") false].
Example ex_excl_hyps : Forall (excluding ctx0 false) ex_excl /\ (forall i t, located [] (t_ch tree1) i t -> ~ In nl (path_of ctx0 i)) /\
  match parse_selection_args ctx0 (t_info tree1) false ex_excl with
  | Some fs => decide ctx0 fs [] tree1 = Some Include /\
      names (select_iter ctx0 100 fs tree1) = Some (Some [[]; [bs "f"]; [bs "x"]; [bs "x"; bs "q.c"]])
  | None => False
  end.
Proof.
  split; [|split].
  - repeat apply Forall_cons; try apply Forall_nil; cbn [excluding]; try reflexivity; try exact I.
    + split; [reflexivity|]. vm_compute. intros e [<-|[]]. reflexivity.
    + vm_compute. intros e [<-|[<-|[]]]; reflexivity.
  - intros i t L. apply (located_clean _ _ _ _ _ L); [vm_compute; reflexivity|intros n []|].
    cbn. intros H. repeat (destruct H as [H|H]; [discriminate H|]). exact H.
  - vm_compute. split; reflexivity.
Qed.
