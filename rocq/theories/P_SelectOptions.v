(** * C16: what the other selection options say about a file *)
From Coq Require Import List ZArith Bool Ascii Lia Permutation Sorted.
From Verif Require Import Base L_Base M_Iter L_Iter P_Iter M_Select S_Select L_Select L_Select2 P_Select.
Import List ListNotations.
Local Open Scope Z_scope.

(** ** Options by kind of file: --exclude-device-files, --exclude-symbolic-links, --exclude-sockets,
    --exclude-fifos, --exclude-special-files and their including counterparts *)
Inductive belongs : pred -> fkind -> Prop :=
| B_dev : belongs PDev KDev
| B_sym : belongs PSym KSym
| B_sock : belongs PSock KSock
| B_fifo : belongs PFifo KFifo
| B_special k p : p <> PSpecial -> belongs p k -> belongs PSpecial k.

Theorem C16_kinds : forall c root ns p inc,
  exists f, opt_sfs c root ns (OPred p inc) = Some [f] /\
  forall i path k dev,
    (says c f (mk_srp i path (Some (mk_finfo k dev))) = Says (Some (of_bool inc)) <-> belongs p k) /\
    (says c f (mk_srp i path (Some (mk_finfo k dev))) = Says None <-> ~ belongs p k).
Proof.
  intros c root ns p inc. exists (SfPred p inc). split; [reflexivity|]. intros i path k dev.
  assert (R : eval_pred p (mk_srp i path (Some (mk_finfo k dev))) = true <-> belongs p k).
  { split.
    - destruct p, k; cbn; intros H; try discriminate; try constructor;
      solve [apply (B_special _ PDev); [discriminate|constructor] | apply (B_special _ PSym); [discriminate|constructor]
            | apply (B_special _ PSock); [discriminate|constructor] | apply (B_special _ PFifo); [discriminate|constructor]].
    - intros H. destruct H as [| | | |k p N H]; try reflexivity. destruct H; try reflexivity. congruence. }
  unfold says. cbn [call fst]. unfold says_if. destruct (eval_pred p _); split; split; intros H; try discriminate; try reflexivity.
  - now apply R.
  - exfalso. apply H. now apply R.
  - apply R in H. discriminate.
  - intros B. apply R in B. discriminate.
Qed.

(** ** --exclude-if-present, --include-if-present *)
Theorem C16_if_present : forall c root ns name inc,
  exists f, opt_sfs c root ns (OPresent name inc) = Some [f] /\
  forall i path k dev, says c f (mk_srp i path (Some (mk_finfo k dev))) =
    Says (match k with
          | KDir true => if c_present c i name then Some (of_bool inc) else None
          | KDir false => None
          | _ => if inc && c_present c (removelast i) name then Some Include else None
          end).
Proof.
  intros c root ns name inc. exists (SfPresence name inc). split; [reflexivity|]. intros i path k dev.
  unfold says. cbn [call fst rp_isdir rp_readable rp_data rp_index fi_kind].
  destruct k as [n|[]| | | | |]; cbn [andb negb]; rewrite ?andb_true_r, ?andb_false_r; try (destruct inc, (c_present c (removelast i) name); reflexivity).
  destruct (c_present c i name); reflexivity.
Qed.

(** ** --exclude-other-filesystems *)
Theorem C16_other_filesystems : forall c root ns,
  exists f, opt_sfs c root ns OOtherFs = Some [f] /\
  forall i path k dev, says c f (mk_srp i path (Some (mk_finfo k dev))) =
    Says (if dev =? fi_dev root then None else Some Exclude).
Proof.
  intros c root ns. exists (SfOtherFs (fi_dev root) false). split; [reflexivity|]. intros i path k dev.
  unfold says. cbn [call fst rp_data fi_dev]. destruct (dev =? fi_dev root); reflexivity.
Qed.

(** ** Lists of files in which some are to be included and some to be excluded *)
Definition le2 (x y : idx * bool) : Prop :=
  idx_lt (fst x) (fst y) \/ fst x = fst y /\ (snd x = true -> snd y = true).
Lemma le2_trans x y z : le2 x y -> le2 y z -> le2 x z.
Proof.
  unfold le2. intros [A|[A A']] [B|[B B']].
  - left. eapply idx_lt_trans; eauto.
  - left. now rewrite <- B.
  - left. now rewrite A.
  - right. split; [congruence|auto].
Qed.
Lemma cmp_le2 x y : pair_cmp x y <> Gt -> le2 x y.
Proof.
  unfold pair_cmp, le2. destruct (idx_cmp (fst x) (fst y)) eqn:E; intros H; [|left; exact E|congruence].
  right. split; [now apply idx_cmp_eq|]. destruct (snd x), (snd y); auto; congruence.
Qed.
Lemma cmp_gt2 x y : pair_cmp x y = Gt -> le2 y x.
Proof.
  unfold pair_cmp, le2. destruct (idx_cmp (fst x) (fst y)) eqn:E; intros H; [|discriminate|left; now apply idx_cmp_gt].
  right. split; [symmetry; now apply idx_cmp_eq|]. destruct (snd x), (snd y); auto; discriminate.
Qed.
Lemma insert_sorted2 x l : StronglySorted le2 l -> StronglySorted le2 (insert_pair x l).
Proof.
  induction 1 as [|y l Sl IH F]; cbn; [repeat constructor|].
  destruct (pair_cmp x y) eqn:E.
  1,2: (assert (L : le2 x y) by (apply cmp_le2; congruence);
        constructor; [now constructor|]; constructor; [exact L|];
        rewrite Forall_forall in *; intros z Hz; eapply le2_trans; eauto).
  constructor; [exact IH|]. eapply Permutation_Forall; [symmetry; apply insert_pair_perm|].
  constructor; [now apply cmp_gt2|exact F].
Qed.
Lemma sort_sorted2 l : StronglySorted le2 (sort_pairs l).
Proof. induction l; cbn; [constructor|now apply insert_sorted2]. Qed.

Definition excluded_by (l : list (idx * bool)) (j : idx) : Prop := exists e, In (e, false) l /\ prefix e j.
Definition included_by (l : list (idx * bool)) (j : idx) : Prop :=
  exists x, In (x, true) l /\ prefix j x /\ forall y, In (y, false) l -> idx_lt j y -> idx_lt x y.

Lemma mixed_loop j l : StronglySorted le2 l -> forall cur,
  match fst (filelist_loop j l cur) with
  | Some false => excluded_by l j
  | Some true => ~ excluded_by l j /\ included_by l j
  | None => ~ excluded_by l j /\ ~ included_by l j
  end.
Proof.
  induction 1 as [|[i b] l Sl IH F]; intros cur.
  { cbn. split; intros (x & [] & _). }
  assert (After : forall e, In (e, false) l -> idx_lt i e \/ i = e /\ b = false).
  { intros e He. rewrite Forall_forall in F. destruct (F _ He) as [X|[X Y]]; cbn in *; auto. right. split; auto. destruct b; auto. symmetry. now apply Y. }
  assert (AfterT : forall e, In (e, true) l -> idx_lt i e \/ i = e).
  { intros e He. rewrite Forall_forall in F. destruct (F _ He) as [X|[X Y]]; cbn in *; auto. }
  assert (NoPre : forall e, idx_lt j e -> ~ prefix e j).
  { intros e L P. destruct (prefix_le _ _ P) as [->|Q]; [now apply idx_lt_irrefl in L|]. eapply idx_lt_irrefl, idx_lt_trans; eauto. }
  cbn [filelist_loop]. unfold pair_match. destruct b.
  - assert (Ex : excluded_by ((i, true) :: l) j <-> excluded_by l j).
    { split; intros (e & He & P); [destruct He as [He|He]; [discriminate|]|]; exists e; split; auto. now right. }
    assert (NoEx : idx_lt j i \/ j = i -> ~ excluded_by ((i, true) :: l) j).
    { intros L X. apply Ex in X as (e & He & P). destruct (After e He) as [A|[_ A]]; [|discriminate].
      apply (NoPre e); auto. destruct L as [L| ->]; [eapply idx_lt_trans; eauto|auto]. }
    assert (Inc : prefix j i -> included_by ((i, true) :: l) j).
    { intros P. exists i. split; [now left|]. split; auto. intros y [Hy|Hy] L; [discriminate|].
      destruct (After y Hy) as [A|[_ A]]; [auto|discriminate]. }
    destruct (idx_ltb i j) eqn:E1.
    + apply L_Iter.idx_ltb_lt in E1. cbn [fst]. specialize (IH (S cur)).
      assert (In' : included_by ((i, true) :: l) j <-> included_by l j).
      { split.
        - intros (x & [Hx|Hx] & P & Q).
          + injection Hx as <-. destruct (prefix_le _ _ P) as [->|L]; [now apply idx_lt_irrefl in E1|].
            exfalso. eapply idx_lt_irrefl, idx_lt_trans; eauto.
          + exists x. split; auto. split; auto. intros y Hy. apply Q. now right.
        - intros (x & Hx & P & Q). exists x. split; [now right|]. split; auto. intros y [Hy|Hy]; [discriminate|auto]. }
      destruct (fst (filelist_loop j l (S cur))) as [[]|]; rewrite ?Ex, ?In'; exact IH.
    + destruct (idx_eqb i j) eqn:E2.
      * apply idx_eqb_eq in E2. subst i. cbn [fst]. split; [apply NoEx; now right|apply Inc, prefix_refl].
      * assert (L : idx_lt j i).
        { destruct (idx_trichotomy j i) as [H|[H|H]]; auto.
          - subst. rewrite (proj2 (idx_eqb_eq i i) eq_refl) in E2. discriminate.
          - apply L_Iter.idx_ltb_lt in H. congruence. }
        destruct (is_prefix j i) eqn:E3; cbn [fst].
        -- apply is_prefix_spec in E3. split; [apply NoEx; now left|now apply Inc].
        -- split; [apply NoEx; now left|]. intros (x & Hx & P & _).
           assert (Q : prefix j i); [|apply is_prefix_spec in Q; congruence].
           destruct Hx as [Hx|Hx]; [now injection Hx as <-|]. destruct (AfterT x Hx) as [A| ->]; [|exact P].
           eapply prefix_between; eauto.
  - destruct (is_prefix i j) eqn:E0.
    { cbn [fst]. exists i. split; [now left|now apply is_prefix_spec]. }
    assert (N0 : ~ prefix i j) by (intros H; apply is_prefix_spec in H; congruence).
    assert (Ex : excluded_by ((i, false) :: l) j <-> excluded_by l j).
    { split; intros (e & He & P); [destruct He as [He|He]; [injection He as <-; contradiction|]|]; exists e; split; auto. now right. }
    destruct (idx_ltb i j) eqn:E1.
    + apply L_Iter.idx_ltb_lt in E1. cbn [fst]. specialize (IH (S cur)).
      assert (In' : included_by ((i, false) :: l) j <-> included_by l j).
      { split.
        - intros (x & [Hx|Hx] & P & Q); [discriminate|].
          exists x. split; auto. split; auto. intros y Hy. apply Q. now right.
        - intros (x & Hx & P & Q). exists x. split; [now right|]. split; auto. intros y [Hy|Hy]; [|auto].
          injection Hy as <-. intros L. exfalso. eapply idx_lt_irrefl, idx_lt_trans; eauto. }
      destruct (fst (filelist_loop j l (S cur))) as [[]|]; rewrite ?Ex, ?In'; exact IH.
    + assert (J : idx_lt j i).
      { destruct (idx_trichotomy j i) as [H|[H|H]]; auto; [subst; destruct N0; apply prefix_refl|].
        apply L_Iter.idx_ltb_lt in H. congruence. }
      cbn [fst]. split.
      * rewrite Ex. intros (e & He & P). apply (NoPre e); auto. destruct (After e He) as [A|[<- _]]; auto. eapply idx_lt_trans; eauto.
      * intros (x & [Hx|Hx] & P & Q); [discriminate|]. specialize (Q i (or_introl eq_refl) J).
        destruct (AfterT x Hx) as [A| ->]; [eapply idx_lt_irrefl, idx_lt_trans; eauto|now apply idx_lt_irrefl in Q].
Qed.

(** A list of files with lines "+ ..." and "- ...": what is listed for exclusion is excluded, with everything
    below it; of the rest, what is listed for inclusion is included, and a directory above one, provided that
    no line excludes something which sorts between the two. *)
Theorem C16_mixed_list : forall c ns content inc rp,
  let entries := filelist_read c inc (list_lines ns content) in
  let f := filelist_sf c ns content inc in
  let i := rp_index rp in
  let excluded := exists e, In (e, false) entries /\ inside e i in
  let included := exists x, In (x, true) entries /\ inside i x /\ forall y, In (y, false) entries -> idx_lt i y -> idx_lt x y in
  (says c f rp = Says (Some Exclude) <-> excluded) /\
  (says c f rp = Says (Some Include) <-> ~ excluded /\ included) /\
  (says c f rp = Says None <-> ~ excluded /\ ~ included).
Proof.
  intros c ns content inc rp entries f i excluded included.
  unfold f, filelist_sf, says. fold entries. cbn [call skipn].
  pose proof (mixed_loop i (sort_pairs entries) (sort_sorted2 _) 0) as H. fold i.
  assert (P : forall e, In e (sort_pairs entries) <-> In e entries)
    by (intros e; split; apply Permutation_in; [apply sort_pairs_perm|symmetry; apply sort_pairs_perm]).
  assert (Ex : excluded_by (sort_pairs entries) i <-> excluded).
  { unfold excluded_by, excluded. split; intros (e & He & Q); exists e; (split; [now apply P|exact Q]). }
  assert (In' : included_by (sort_pairs entries) i <-> included).
  { unfold included_by, included. split; intros (x & Hx & Q & R); exists x; (split; [now apply P|]); (split; [exact Q|]); intros y Hy; apply R; now apply P. }
  clearbody excluded included. destruct (filelist_loop i (sort_pairs entries) 0) as [[[]|] n]; cbn [fst option_map of_bool] in *;
  repeat split; try discriminate; tauto.
Qed.

(** So "- a/b" keeps "+ a/c" from being backed up: nothing is said of the directory "a", which a final
    --exclude '**' then excludes. *)
Theorem C16_mixed_list_parent_refuted :
  let c := mk_sctx (bs "/home") (fun _ _ => false) in
  let opts := [OFilelist (bs "+ /home/a/c" ++ [nl] ++ bs "- /home/a/b") true; OGlob (bs "**") false] in
  let dir := KDir true in
  let leaf n := (n, FT (mk_finfo (KReg 1) 0) []) in
  let root := FT (mk_finfo dir 0) [(bs "a", FT (mk_finfo dir 0) [leaf (bs "b"); leaf (bs "c")])] in
  exists fs, parse_selection_args c (mk_finfo dir 0) false opts = Some fs /\
    select_iter c 50 fs root = Some (Some [([], root)]).
Proof. eexists. split; reflexivity. Qed.

(** ** A pattern with an empty part *)
Lemma split_app a q : split_on slash (a ++ slash :: q) = split_on slash a ++ split_on slash q.
Proof.
  induction a as [|c a IH]; [reflexivity|]. cbn [app split_on]. rewrite IH. destruct (Ascii.eqb c slash); [reflexivity|].
  destruct (split_on slash a) as [|x l] eqn:E; [|reflexivity]. exfalso. exact (split_on_nonempty slash a E).
Qed.
Lemma no_dstar_trunc a q : (forall x y, a <> x ++ c_star :: c_star :: y) -> trunc_dstar (a ++ slash :: q) = a ++ trunc_dstar (slash :: q).
Proof.
  induction a as [|c a IH]; intros N; [reflexivity|]. cbn [app trunc_dstar].
  assert (X : Ascii.eqb c c_star && match a ++ slash :: q with d :: _ => Ascii.eqb d c_star | [] => false end = false).
  { destruct (Ascii.eqb c c_star) eqn:E; auto. apply Ascii.eqb_eq in E. subst c. destruct a as [|d a]; [reflexivity|]. cbn [app andb].
    destruct (Ascii.eqb d c_star) eqn:E; auto. apply Ascii.eqb_eq in E. subst d. exfalso. apply (N [] a). reflexivity. }
  rewrite X. f_equal. apply IH. intros x y E. apply (N (c :: x) y). cbn. now rewrite E.
Qed.
Theorem C16_double_slash_refused : forall c a b inc,
  looks_like_glob (a ++ slash :: slash :: b) = true -> has_ignorecase (a ++ slash :: slash :: b) = false ->
  (forall x y, a <> x ++ c_star :: c_star :: y) ->
  glob_sf c (a ++ slash :: slash :: b) inc = None.
Proof.
  intros c a b inc L I N. unfold glob_sf.
  assert (E : beq_bytes (a ++ slash :: slash :: b) (bs "**") = false).
  { apply beq_bytes_false. intros E. assert (X : In slash (bs "**")) by (rewrite <- E; apply in_or_app; right; now left).
    destruct X as [X|[X|[]]]; discriminate. }
  rewrite E, L. cbn [negb].
  assert (G : glob_prefixes (trunc_dstar (a ++ slash :: slash :: b)) = None).
  { rewrite no_dstar_trunc by auto. replace (trunc_dstar (slash :: slash :: b)) with (slash :: slash :: trunc_dstar b) by reflexivity.
    unfold glob_prefixes. rewrite split_app. cbn [split_on]. rewrite Ascii.eqb_refl.
    destruct (split_on slash a) as [|x xs] eqn:Ea; [exfalso; exact (split_on_nonempty slash a Ea)|].
    destruct (split_on slash (trunc_dstar b)) as [|y ys] eqn:Eb; [exfalso; exact (split_on_nonempty slash _ Eb)|].
    replace (has_empty _) with true; [reflexivity|]. symmetry. unfold has_empty, inner. apply existsb_exists. exists []. split; [|reflexivity].
    cbn [tl app]. rewrite removelast_app by discriminate. apply in_or_app. right. now left. }
  unfold glob_build. rewrite I. unfold glob_compile. rewrite G. destruct (glob_toks _); reflexivity.
Qed.

Example kinds_ex : belongs PSpecial KSock /\ ~ belongs PSpecial (KReg 3).
Proof. split; [apply (B_special _ PSock); [discriminate|constructor]|]. intros H. inversion H as [| | | |k p N B]; subst. inversion B; subst; contradiction. Qed.
Example double_slash_ex : glob_sf (mk_sctx (bs "/home") (fun _ _ => false)) (bs "/home//*.c") true = None
  /\ glob_sf (mk_sctx (bs "/home") (fun _ _ => false)) (bs "/home/*.c") true <> None.
Proof. split; [reflexivity|]. vm_compute. discriminate. Qed.

Print Assumptions C16_kinds.
Print Assumptions C16_if_present.
Print Assumptions C16_other_filesystems.
Print Assumptions C16_mixed_list.
Print Assumptions C16_mixed_list_parent_refuted.
Print Assumptions C16_double_slash_refused.
