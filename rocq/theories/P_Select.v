(** * C16, C17, C18: selection of files *)
From Coq Require Import List ZArith Bool Ascii Lia Permutation.
From Verif Require Import Base L_Base M_Iter L_Iter P_Iter M_Select S_Select L_Select L_Glob L_Select2.
Import List ListNotations.
Local Open Scope Z_scope.

(** ** C16: the first option which decides *)

Definition scans (c : sctx) (rp : srp) (f : sf) : bool :=
  match says c f rp with Says (Some Doscan) => true | _ => false end.
Lemma scans_exists c rp pre : existsb (scans c rp) pre = true <-> Exists (fun g => says c g rp = Says (Some Doscan)) pre.
Proof.
  rewrite existsb_exists, Exists_exists. unfold scans.
  split; intros [x [I H]]; exists x; split; auto; [|now rewrite H].
  destruct (says c x rp) as [[[]|]|]; congruence.
Qed.
Lemma sel_app c rp pre rest : Forall (fun g => undecided (says c g rp)) pre -> forall s,
  fst (sel_loop c false rp (pre ++ rest) s) =
  fst (sel_loop c false rp rest (if existsb (scans c rp) pre then Doscan else s)).
Proof.
  induction 1 as [|f pre U F IH]; intros s; [reflexivity|]. cbn [app sel_loop andb existsb].
  unfold scans at 1. unfold undecided in U. unfold says in U |- * at 1.
  destruct (call c f rp) as [r f']. cbn [fst] in *.
  destruct U as [->| ->].
  - cbn [orb]. specialize (IH s). now destruct (sel_loop c false rp (pre ++ rest) s).
  - cbn [orb]. specialize (IH Doscan).
    replace (if existsb (scans c rp) pre then Doscan else Doscan) with Doscan in IH by now destruct (existsb _ _).
    now destruct (sel_loop c false rp (pre ++ rest) Doscan).
Qed.
Lemma sel_split c rp fs : Forall (fun g => undecided (says c g rp)) fs \/
  exists pre f post, fs = pre ++ f :: post /\ Forall (fun g => undecided (says c g rp)) pre /\
    (says c f rp = Says (Some Include) \/ says c f rp = Says (Some Exclude) \/ says c f rp = Raises).
Proof.
  induction fs as [|f fs IH]; [left; constructor|].
  destruct (says c f rp) as [[[]|]|] eqn:E; try (right; exists [], f, fs; cbn; rewrite E; auto; fail);
    (destruct IH as [IH|[pre [g [post [-> [F H]]]]]];
     [left; constructor; [unfold undecided; auto|exact IH]
     |right; exists (f :: pre), g, post; repeat split; auto; constructor; auto; unfold undecided; auto]).
Qed.

(** The first option (in command-line order) which includes or excludes the file
    decides; without one the file is included.  A directory that an earlier
    option wants scanned is scanned instead of being excluded. *)
Theorem C16_first_match_decides : forall c fs rp v,
  fst (select_default c fs rp) = Some v <->
  (exists pre f post, fs = pre ++ f :: post /\ Forall (fun g => undecided (says c g rp)) pre /\
     (says c f rp = Says (Some Include) /\ v = Include \/
      says c f rp = Says (Some Exclude) /\
        (v = Doscan /\ Exists (fun g => says c g rp = Says (Some Doscan)) pre \/
         v = Exclude /\ ~ Exists (fun g => says c g rp = Says (Some Doscan)) pre))) \/
  (Forall (fun g => undecided (says c g rp)) fs /\ v = Include).
Proof.
  intros c fs rp v. unfold select_default.
  assert (C : forall pre f post s, Forall (fun g => undecided (says c g rp)) pre ->
    fst (sel_loop c false rp (pre ++ f :: post) s) =
    match says c f rp with
    | Says (Some Include) => Some Include
    | Says (Some Exclude) => Some (if existsb (scans c rp) pre then Doscan else s)
    | Raises => None
    | _ => fst (sel_loop c false rp (pre ++ f :: post) s)
    end).
  { intros pre f post s F. rewrite sel_app by exact F. cbn [sel_loop andb]. unfold says.
    destruct (call c f rp) as [[[[]|]|] f']; reflexivity. }
  split.
  - intros H. destruct (sel_split c rp fs) as [F|[pre [f [post [-> [F D]]]]]].
    + right. split; [exact F|]. rewrite <- (app_nil_r fs), sel_app in H by exact F. cbn in H. congruence.
    + left. exists pre, f, post. split; [reflexivity|]. split; [exact F|]. rewrite (C _ _ _ _ F) in H.
      pose proof (scans_exists c rp pre) as X.
      destruct D as [D|[D|D]]; rewrite D in *; [left|right|discriminate].
      * split; congruence.
      * split; [reflexivity|]. destruct (existsb _ _); injection H as <-; [left|right]; split; auto.
        -- now apply X.
        -- intros Y; apply X in Y; discriminate.
  - intros [[pre [f [post [-> [F D]]]]]|[F ->]].
    + rewrite (C _ _ _ _ F). pose proof (scans_exists c rp pre) as X.
      destruct D as [[D ->]|[D [[-> E]|[-> E]]]]; rewrite D; auto.
      * apply X in E. now rewrite E.
      * destruct (existsb _ _); [destruct E; now apply X|reflexivity].
    + rewrite <- (app_nil_r fs), sel_app by exact F. reflexivity.
Qed.
Print Assumptions C16_first_match_decides.

(** Whatever the options, rdiff-backup's own directory is not selected. *)
Theorem C16_own_data_excluded : forall c root ns opts fs rp,
  parse_selection_args c root ns opts = Some fs -> own_data (rp_index rp) ->
  fst (select_default c fs rp) = Some Exclude.
Proof.
  intros c root ns opts fs rp P [r E]. unfold parse_selection_args in P.
  destruct (concat_some _) as [l|]; [|discriminate]. destruct (last_excludes l); [|discriminate].
  injection P as <-. apply C16_first_match_decides. left. exists [], rbdir_sf, l.
  split; [reflexivity|]. split; [constructor|]. right. split.
  - unfold says, rbdir_sf. cbn [call fst]. rewrite E. unfold says_if.
    replace (is_prefix [rbdir] (rbdir :: r)) with true; [reflexivity|].
    symmetry. apply is_prefix_spec. now exists r.
  - right. split; [reflexivity|]. intros X. inversion X.
Qed.
Print Assumptions C16_own_data_excluded.

(** A list of options which ends with an inclusion is rejected. *)
Theorem C16_last_must_exclude : forall c root ns opts g,
  parse_selection_args c root ns (opts ++ [OGlob g true]) = None.
Proof.
  intros c root ns opts g. unfold parse_selection_args.
  destruct (concat_some _) as [l|] eqn:E; [|reflexivity].
  assert (exists l' f, l = l' ++ [f] /\ sf_exclude f = false) as [l' [f [-> X]]].
  { revert l E. induction opts as [|o opts IH]; intros l E.
    - cbn in E. destruct (glob_sf c g true) as [f|] eqn:Ef; [|discriminate]. cbn in E. injection E as <-.
      exists [], f. split; [reflexivity|]. unfold glob_sf in Ef.
      destruct (beq_bytes g _); [now injection Ef as <-|].
      destruct (negb _); [destruct (relative_index c g); [now injection Ef as <-|discriminate]|].
      destruct (glob_build g); [|discriminate]. destruct (_ || _); [now injection Ef as <-|discriminate].
    - cbn [app map concat_some] in E. destruct (opt_sfs c root ns o) as [l0|]; [|discriminate].
      destruct (concat_some (map (opt_sfs c root ns) (opts ++ [OGlob g true]))) as [l1|]; [|discriminate].
      cbn in E. injection E as <-. destruct (IH l1 eq_refl) as [l' [f [-> X]]].
      exists (l0 ++ l'), f. split; [now rewrite app_assoc|exact X]. }
  assert (last_excludes (l' ++ [f]) = false) as ->; [|reflexivity].
  clear E. induction l' as [|a l' IH]; [exact X|]. cbn [app last_excludes].
  destruct (l' ++ [f]) eqn:El; [destruct l'; discriminate|exact IH].
Qed.
Print Assumptions C16_last_must_exclude.
(** One which is empty isn't: all but the repository's own data is selected. *)
Theorem C16_no_options c root ns : exists fs, parse_selection_args c root ns [] = Some fs /\
  forall rp, ~ own_data (rp_index rp) -> fst (select_default c fs rp) = Some Include.
Proof.
  exists [rbdir_sf]. split; [reflexivity|]. intros rp H. apply C16_first_match_decides. right. split; [|reflexivity].
  constructor; [|constructor]. left. unfold says, rbdir_sf. cbn [call fst]. unfold says_if.
  assert (N1 : is_prefix [rbdir] (rp_index rp) = false).
  { destruct (is_prefix [rbdir] (rp_index rp)) eqn:E; [|reflexivity]. apply is_prefix_spec in E. destruct E as [r E]. exfalso. apply H. exists r. exact E. }
  rewrite N1. reflexivity.
Qed.
Print Assumptions C16_no_options.

(** What a plain file name given to --exclude / --include says about a file. *)

Theorem C16_plain_name : forall c name t inc rp,
  looks_like_glob name = false -> relative_index c name = Some t ->
  exists f, glob_sf c name inc = Some f /\
   (inc = false -> (says c f rp = Says (Some Exclude) <-> inside t (rp_index rp)) /\
                   (says c f rp = Says None <-> ~ inside t (rp_index rp))) /\
   (inc = true ->  (says c f rp = Says (Some Include) <-> inside t (rp_index rp) \/ inside (rp_index rp) t) /\
                   (says c f rp = Says None <-> ~ (inside t (rp_index rp) \/ inside (rp_index rp) t))).
Proof.
  intros c name t inc rp L R. exists (SfTuple t inc). split.
  - unfold glob_sf. rewrite L, R. cbn [negb option_map].
    destruct (beq_bytes name (bs "**")) eqn:E; [|reflexivity].
    apply beq_bytes_true in E; subst name. discriminate L.
  - assert (P : forall a b, is_prefix a b = true <-> inside a b) by (intros; apply is_prefix_spec).
    split; intros ->; unfold says; cbn [call fst]; unfold says_if.
    + rewrite <- P. destruct (is_prefix t _); split; split; intros; try discriminate; try congruence; auto.
    + rewrite <- !P. rewrite or_comm.
      destruct (is_prefix _ t), (is_prefix t _); cbn [orb]; split; split; intros; try discriminate; try congruence; auto.
      * destruct H; auto.
      * destruct H; auto.
      * destruct H; auto.
      * destruct H; discriminate.
      * intros [|]; discriminate.
Qed.
Print Assumptions C16_plain_name.

(** What a globbing pattern (without brackets and backslashes) says: files whose
    path, or the path of a directory above, matches it; names ending in a newline
    apart. *)
Theorem C16_glob : forall c g inc f rp,
  plain_glob g -> looks_like_glob g = true -> g <> bs "**" -> glob_sf c g inc = Some f ->
  ~ In nl (rp_path rp) ->
  (says c f rp = Says (Some (of_bool inc)) <->
   exists p rest, rp_path rp = p ++ rest /\ glob_matches g p /\ (rest = [] \/ exists r, rest = slash :: r)).
Proof.
  intros c g inc f rp [N1 [N2 N3]] L N E NL. unfold glob_sf in E.
  apply beq_bytes_false in N. rewrite N, L in E. cbn [negb] in E.
  unfold glob_build in E. rewrite N3 in E.
  destruct (glob_compile false g) as [r|] eqn:C; [|discriminate].
  destruct (_ || _); [|discriminate]. injection E as <-.
  unfold says. cbn [call fst]. pose proof (glob_hit_spec g r (rp_path rp) (conj N1 N2) C) as H.
  transitivity (glob_hit r (rp_path rp) = true).
  - destruct (glob_hit r (rp_path rp)).
    + tauto.
    + split; [|discriminate]. destruct inc, (scan_hit r (rp_path rp)); discriminate.
  - rewrite H. split; intros [p1 [p2 [E [M K]]]]; exists p1, p2; repeat split; auto.
    + destruct K as [K|[K|K]]; auto. destruct NL. rewrite E, K. apply in_or_app; right; now left.
    + destruct K; auto.
Qed.
Print Assumptions C16_glob.

(** ** File lists *)

(** A list of files all to be included: it includes the files listed and the
    directories above them, and says nothing of other files. *)
Theorem C16_include_list : forall c ns content rp,
  let entries := filelist_read c true (list_lines ns content) in
  (forall e, In e entries -> snd e = true) ->
  let f := filelist_sf c ns content true in
  (says c f rp = Says (Some Include) <-> exists e, In e entries /\ inside (rp_index rp) (fst e)) /\
  (says c f rp = Says None <-> ~ exists e, In e entries /\ inside (rp_index rp) (fst e)).
Proof.
  intros c ns content rp entries A f. unfold f, filelist_sf, says. fold entries. cbn [call skipn].
  pose proof (include_only_loop (rp_index rp) (sort_pairs entries) 0 (sort_pairs_sorted _)) as H.
  assert (P : forall e, In e (sort_pairs entries) <-> In e entries)
    by (intros e; split; apply Permutation_in; [apply sort_pairs_perm|symmetry; apply sort_pairs_perm]).
  destruct (filelist_loop _ _ _) as [o n]. cbn [fst] in *.
  destruct H as [[[e [I Q]] ->]|[N ->]]; [intros e He; apply A; now apply P| |].
  - cbn. split; split; intros H; try discriminate; auto.
    + exists e. split; [now apply P|exact Q].
    + destruct H. exists e. split; [now apply P|exact Q].
  - cbn. split; split; intros H; try discriminate; auto.
    + destruct H as [e [I Q]]. destruct (N e); [now apply P|exact Q].
    + intros [e [I Q]]. destruct (N e); [now apply P|exact Q].
Qed.
Print Assumptions C16_include_list.

(** A list of files all to be excluded: it excludes them and everything below. *)
Theorem C16_exclude_list : forall c ns content rp,
  let entries := filelist_read c false (list_lines ns content) in
  (forall e, In e entries -> snd e = false) ->
  let f := filelist_sf c ns content false in
  (says c f rp = Says (Some Exclude) <-> exists e, In e entries /\ inside (fst e) (rp_index rp)) /\
  (says c f rp = Says None <-> ~ exists e, In e entries /\ inside (fst e) (rp_index rp)).
Proof.
  intros c ns content rp entries A f. unfold f, filelist_sf, says. fold entries. cbn [call skipn].
  pose proof (exclude_only_loop (rp_index rp) (sort_pairs entries) 0 (sort_pairs_sorted _)) as H.
  assert (P : forall e, In e (sort_pairs entries) <-> In e entries)
    by (intros e; split; apply Permutation_in; [apply sort_pairs_perm|symmetry; apply sort_pairs_perm]).
  destruct (filelist_loop _ _ _) as [o n]. cbn [fst] in *.
  destruct H as [[[e [I Q]] ->]|[N ->]]; [intros e He; apply A; now apply P| |].
  - cbn. split; split; intros H; try discriminate; auto.
    + exists e. split; [now apply P|exact Q].
    + destruct H. exists e. split; [now apply P|exact Q].
  - cbn. split; split; intros H; try discriminate; auto.
    + destruct H as [e [I Q]]. destruct (N e); [now apply P|exact Q].
    + intros [e [I Q]]. destruct (N e); [now apply P|exact Q].
Qed.
Print Assumptions C16_exclude_list.

(** ** C17 *)
Lemma fresh_reset f : fresh f -> reset f = f.
Proof. destruct f; cbn; intros; subst; reflexivity. Qed.
Lemma freshs_reset fs : Forall fresh fs -> map reset fs = fs.
Proof. induction 1; cbn; [reflexivity|]. now rewrite fresh_reset, IHForall. Qed.

Lemma glob_sf_fresh c g b f : glob_sf c g b = Some f -> fresh f /\ tame f.
Proof.
  unfold glob_sf. destruct (beq_bytes g _); [intros [= <-]; cbn; auto|].
  destruct (negb _); [destruct (relative_index c g); [intros [= <-]; cbn; auto|discriminate]|].
  destruct (glob_build g); [|discriminate]. destruct (_ || _); [intros [= <-]; cbn; auto|discriminate].
Qed.

(** The options as parsed are fresh. *)
Lemma parse_fresh c root ns opts fs : parse_selection_args c root ns opts = Some fs -> Forall fresh fs.
Proof.
  unfold parse_selection_args. destruct (concat_some _) as [l|] eqn:E; [|discriminate].
  destruct (last_excludes l); [|discriminate]. intros [= <-]. constructor; [exact I|].
  revert l E. induction opts as [|o opts IH]; cbn; intros l E; [injection E as <-; constructor|].
  destruct (opt_sfs c root ns o) as [l0|] eqn:Eo; [|discriminate].
  destruct (concat_some _) as [l1|]; [|discriminate]. injection E as <-. apply Forall_app. split; [|auto].
  destruct o; cbn in Eo; try (injection Eo as <-; repeat constructor; fail).
  - destruct (glob_sf c g inc) eqn:Eg; [|discriminate]. injection Eo as <-. constructor; [|constructor].
    eapply glob_sf_fresh; eauto.
  - destruct (0 <? size); [|discriminate]. injection Eo as <-. repeat constructor.
  - revert l0 Eo. induction (list_lines ns content) as [|ln lns IHl]; cbn; intros l0 Eo; [injection Eo as <-; constructor|].
    destruct (plus_minus ln inc) as [g0 b0]. destruct (glob_sf c g0 b0) eqn:Eg; [|discriminate].
    destruct (all_some _) as [l2|]; [|discriminate]. injection Eo as <-. constructor; [eapply glob_sf_fresh; eauto|auto].
Qed.

(** What is selected in a directory tree, for all tame options: the iteration ends,
    without exception, yields the root first and then, sorted and without repetition,
    exactly the files chosen according to what the options say about each file
    alone. *)
Theorem C17_tree_selection : forall c ri ns opts fs root,
  parse_selection_args c ri ns opts = Some fs -> Forall tame fs ->
  wf_tree root -> t_isdir root = true ->
  exists n o, select_iter c n fs root = Some (Some (([], root) :: o)) /\
    listing fst (([], root) :: o) /\
    forall i t, In (i, t) o <-> chosen (decide c fs) [] (t_ch root) i t.
Proof.
  intros c ri ns opts fs root P T Wf Dr. pose proof (freshs_reset _ (parse_fresh _ _ _ _ _ P)) as F.
  destruct (iterate_spec c fs T F root Wf Dr) as [n [o [E [S [Ch Ne]]]]].
  exists n, o. split; [exact E|]. split; [|exact Ch].
  apply listing_sorted. constructor; [exact S|]. apply Forall_forall. intros x Hx. specialize (Ne x Hx).
  unfold idx_lt. destruct x as [[|? ?] ?]; [now destruct Ne|reflexivity].
Qed.
Print Assumptions C17_tree_selection.

(** A root which is not a directory is selected alone. *)
Theorem C17_single_file : forall c fs root n, t_isdir root = false ->
  select_iter c n fs root = Some (Some [([], root)]).
Proof. intros c fs root n H. unfold select_iter. now rewrite H. Qed.

(** Every directory above a file matched by an included glob is itself included
    or scanned by this glob. *)
Theorem C17_parents_of_match : forall c g f i q t,
  plain_glob g -> looks_like_glob g = true -> g <> bs "**" -> glob_sf c g true = Some f ->
  (exists b, c_base c = slash :: b) -> q <> [] -> covered c g (i ++ q) ->
  says c f (real_rp c i t) = Says (Some Include) \/ says c f (real_rp c i t) = Says (Some Doscan).
Proof.
  intros c g f i q t [N1 [N2 N3]] L N E B Q Cv. unfold glob_sf in E.
  apply beq_bytes_false in N. rewrite N, L in E. cbn [negb] in E.
  unfold glob_build in E. rewrite N3 in E.
  destruct (glob_compile false g) as [r|] eqn:C; [|discriminate].
  destruct (_ || _); [|discriminate]. injection E as <-.
  unfold says. cbn [call fst rp_path real_rp].
  destruct (above_covered c g r (conj N1 N2) C B i q Q Cv) as [H|H].
  - left. replace (glob_hit r (path_of c i)) with true; [reflexivity|]. symmetry.
    apply (glob_hit_spec g r _ (conj N1 N2) C). destruct H as [p [rest [E [M K]]]]. exists p, rest.
    repeat split; auto. destruct K; auto.
  - rewrite H. cbn [andb]. destruct (glob_hit r (path_of c i)); [now left|now right].
Qed.
Print Assumptions C17_parents_of_match.

(** `--include GLOB --exclude '**'` selects, in every tree, exactly the files matched
    or below a match, and the directories above them. *)
Lemma rbdir_says c rp : says c rbdir_sf rp = if is_prefix [rbdir] (rp_index rp) then Says (Some Exclude) else Says None.
Proof. unfold says, rbdir_sf. cbn [call fst]. unfold says_if. now destruct (is_prefix _ _). Qed.
Lemma own_prefix i : is_prefix [rbdir] i = true <-> own_data i.
Proof. rewrite is_prefix_spec. unfold own_data, prefix. cbn. reflexivity. Qed.

Theorem C17_include_glob : forall c ri ns g fs root,
  plain_glob g -> looks_like_glob g = true -> g <> bs "**" ->
  (exists b, c_base c = slash :: b) ->
  parse_selection_args c ri ns [OGlob g true; OGlob (bs "**") false] = Some fs ->
  wf_tree root -> t_isdir root = true ->
  (forall i t, located [] (t_ch root) i t -> ~ In nl (path_of c i)) ->
  exists n o, select_iter c n fs root = Some (Some (([], root) :: o)) /\
    forall i t, In (i, t) o <->
      located [] (t_ch root) i t /\ ~ own_data i /\
      (covered c g i \/ exists q u, q <> [] /\ located [] (t_ch root) (i ++ q) u /\ covered c g (i ++ q)).
Proof.
  intros c ri ns g fs root PG L N B P Wf Dr NL.
  assert (Ef : exists f, glob_sf c g true = Some f /\ fs = [rbdir_sf; f; SfAll false]).
  { unfold parse_selection_args in P. cbn [map opt_sfs concat_some] in P.
    destruct (glob_sf c g true) as [f|]; [|discriminate]. exists f. split; [reflexivity|].
    assert (E : glob_sf c (bs "**") false = Some (SfAll false)) by reflexivity.
    rewrite E in P. cbn in P. congruence. }
  destruct Ef as [f [Ef Efs]].
  assert (T : Forall tame fs).
  { rewrite Efs. constructor; [exact I|]. constructor; [eapply glob_sf_fresh; eauto|]. repeat constructor. }
  destruct (C17_tree_selection _ _ _ _ _ _ P T Wf Dr) as [n [o [E [_ Ch]]]].
  exists n, o. split; [exact E|]. intros i t. rewrite Ch. clear E Ch n o.
  (* the decisions *)
  assert (DI : forall i t, ~ In nl (path_of c i) ->
     (decide c fs i t = Some Include <-> ~ own_data i /\ covered c g i) /\
     (own_data i -> decide c fs i t = Some Exclude) /\
     (forall q, q <> [] -> ~ own_data i -> covered c g (i ++ q) -> decide c fs i t = Some Include \/ decide c fs i t = Some Doscan)).
  { clear i t. intros i t NLi. unfold decide, select_default. rewrite Efs. cbn [sel_loop andb].
    pose proof (rbdir_says c (real_rp c i t)) as R. cbn [rp_index real_rp] in R.
    pose proof (own_prefix i) as O. unfold says in R.
    destruct (call c rbdir_sf (real_rp c i t)) as [r0 f0]. cbn [fst] in R. subst r0.
    pose proof (C16_glob c g true f (real_rp c i t) PG L N Ef NLi) as G.
    pose proof (C17_parents_of_match c g f i) as PM.
    unfold says in *. cbn [rp_path real_rp] in G.
    destruct (is_prefix [rbdir] i).
    - assert (own_data i) by now apply O. cbn [fst]. split; [split; [discriminate|tauto]|]. split; [reflexivity|]. tauto.
    - assert (~ own_data i) by (intros X; apply O in X; discriminate).
      assert (G2 : fst (call c f (real_rp c i t)) = Says (Some Include) <-> covered c g i) by exact G.
      assert (PM2 : forall q, q <> [] -> covered c g (i ++ q) ->
         fst (call c f (real_rp c i t)) = Says (Some Include) \/ fst (call c f (real_rp c i t)) = Says (Some Doscan)).
      { intros q Q Cv. apply (PM q t PG L N Ef B Q Cv). }
      destruct (call c f (real_rp c i t)) as [r1 f1]. cbn [fst] in *.
      destruct r1 as [[[]|]|]; cbn [fst call of_bool].
      + split; [split; [discriminate|]; intros [_ X]; apply G2 in X; discriminate|]. split; [tauto|].
        intros q Q _ Cv. destruct (PM2 q Q Cv); discriminate.
      + split; [split; auto; intros _; split; auto; now apply G2|]. split; [tauto|]. auto.
      + split; [split; [discriminate|]; intros [_ X]; apply G2 in X; discriminate|]. split; [tauto|]. auto.
      + split; [split; [discriminate|]; intros [_ X]; apply G2 in X; discriminate|]. split; [tauto|].
        intros q Q _ Cv. destruct (PM2 q Q Cv); discriminate.
      + split; [split; [discriminate|]; intros [_ X]; apply G2 in X; discriminate|]. split; [tauto|].
        intros q Q _ Cv. destruct (PM2 q Q Cv); discriminate. }
  (* visited files are located, outside of rdiff-backup-data *)
  assert (VL : forall d ch i u, visited (decide c fs) d ch i u -> located d ch i u).
  { clear i t. induction 1 as [d ch n t I A|d ch n t i u I A Dt V IH].
    - apply L_here; [exact I|apply A].
    - eapply L_below; eauto. apply A. }
  assert (LP : forall d ch i u, located d ch i u -> exists n t q, In (n, t) ch /\ i = d ++ n :: q /\ t_gone u = false /\ (q <> [] -> t_isdir t = true)).
  { clear. induction 1 as [d ch n t I A|d ch n t i u I A Dt V IH].
    - exists n, t, []. repeat split; auto.
    - destruct IH as [m [w [q [Im [E [G _]]]]]]. exists n, t, (m :: q). split; [exact I|]. split; [|split; auto].
      rewrite E. now rewrite <- app_assoc. }
  assert (LL : forall d ch i u, located d ch i u -> forall d0 ch0,
     (forall j w, located d ch j w -> located d0 ch0 j w) -> located d0 ch0 i u) by auto.
  (* a located file which is covered, with its directories, is visited *)
  assert (LV : forall d ch i u, located d ch i u ->
     (forall j w, located d ch j w -> located [] (t_ch root) j w) -> ~ own_data i ->
     covered c g i \/ (t_isdir u = true /\ exists q w, q <> [] /\ covered c g (i ++ q) /\ located [] (t_ch root) (i ++ q) w) ->
     visited (decide c fs) d ch i u).
  { clear i t. induction 1 as [d ch n t I A|d ch n t i u I A Dt V IH]; intros Sub NO Cv.
    - apply V_here; [exact I|]. split; [exact A|].
      assert (NLi : ~ In nl (path_of c (d ++ [n]))) by (eapply NL, Sub, L_here; eauto).
      destruct (DI (d ++ [n]) t NLi) as [D1 [D2 D3]].
      destruct Cv as [Cv|[Dt [q [w [Q [Cv _]]]]]]; [left; now apply D1|].
      destruct (D3 q Q NO Cv); auto.
    - destruct (LP _ _ _ _ V) as [m [w [q [Im [Ei _]]]]].
      assert (NLi : ~ In nl (path_of c (d ++ [n]))) by (eapply NL, Sub, L_here; eauto).
      destruct (DI (d ++ [n]) t NLi) as [D1 [D2 D3]].
      assert (Ei' : i = (d ++ [n]) ++ m :: q) by exact Ei.
      assert (NO' : ~ own_data (d ++ [n])).
      { intros [x Ex]. apply NO. exists (x ++ m :: q). rewrite Ei', Ex. reflexivity. }
      assert (Ac : accepted (decide c fs) (d ++ [n]) t).
      { split; [exact A|].
        assert (X : exists q', q' <> [] /\ covered c g ((d ++ [n]) ++ q')).
        { destruct Cv as [Cv|[_ [q2 [w2 [Q2 [Cv _]]]]]].
          - exists (m :: q). split; [discriminate|]. rewrite <- Ei'. exact Cv.
          - exists ((m :: q) ++ q2). split; [discriminate|]. rewrite app_assoc, <- Ei'. exact Cv. }
        destruct X as [q' [Q' Cv']]. destruct (D3 q' Q' NO' Cv'); auto. }
      eapply V_below; eauto. apply IH; auto.
      intros j x Lj. apply Sub. eapply L_below; eauto. }
  unfold chosen. split.
  - intros [V Cc]. pose proof (VL _ _ _ _ V) as Lo. pose proof (NL _ _ Lo) as NLi.
    destruct (DI i t NLi) as [D1 [D2 D3]].
    assert (NO : ~ own_data i).
    { intros O. specialize (D2 O). pose proof (visited_accepted c fs _ _ _ _ V) as [_ [A|[A _]]]; unfold D in A; congruence. }
    split; [exact Lo|]. split; [exact NO|].
    destruct Cc as [Cc|[q [u [Q [V2 Cc]]]]]; [left; now apply D1|right].
    exists q, u. split; [exact Q|]. pose proof (VL _ _ _ _ V2) as Lo2. split; [exact Lo2|].
    destruct (DI (i ++ q) u (NL _ _ Lo2)) as [D1' _]. now apply D1'.
  - intros [Lo [NO Cc]]. pose proof (NL _ _ Lo) as NLi. destruct (DI i t NLi) as [D1 _].
    destruct Cc as [Cc|[q [u [Q [Lo2 Cc]]]]].
    + split; [|left; now apply D1]. eapply LV; eauto.
    + (* i is a directory since something lies below *)
      assert (Dt : t_isdir t = true).
      { destruct Wf as [ii ch Nd Fa]. eapply located_above; eauto. }
      split; [eapply LV; eauto; right; split; eauto|].
      right. exists q, u. split; [exact Q|]. destruct (DI (i ++ q) u (NL _ _ Lo2)) as [D1' _].
      assert (NO2 : ~ own_data (i ++ q)).
      { intros [x Ex]. destruct i as [|a i]; [|injection Ex as -> Ex; apply NO; now exists i].
        destruct (LP _ _ _ _ Lo) as [m [w [q0 [_ [E _]]]]]. discriminate E. }
      split; [eapply LV; eauto|apply D1'; auto].
Qed.
Print Assumptions C17_include_glob.

(** ** Filtering a listing (restore, comparison)

    Where no option asks for a directory to be scanned and what lies in an excluded
    directory is excluded too, the filtered listing consists of the included entries. *)
Theorem C17_filter : forall c fs root l,
  Forall fresh fs -> Forall tame fs ->
  listing fst (root :: l) -> fst root = [] -> item_dir root = true ->
  (forall x, In x (root :: l) -> decide_item c fs x <> Some Doscan) ->
  (forall d x, In d (root :: l) -> In x (root :: l) -> item_dir d = true -> inside (fst d) (fst x) ->
     decide_item c fs d = Some Exclude -> decide_item c fs x = Some Exclude) ->
  filter_iter c fs (root :: l) =
  Some (filter (fun x => match decide_item c fs x with Some Include => true | _ => false end) (root :: l)).
Proof.
  intros c fs root l Fr T Li E0 Dr NS He. pose proof (freshs_reset _ Fr) as F0.
  apply listing_sorted in Li. apply sorted_inv in Li as [Srt Lt].
  unfold filter_iter. cbn [itr_run]. unfold itr_call. cbn [st_index itr_init].
  rewrite Dr. cbn [negb].
  pose proof (di_cases c fs T (root :: l) NS root (or_introl eq_refl)) as D0.
  assert (Rt : exists s2, flt_event c (mk_flt [] [] [] fs) (Start root) = Some s2 /\
     f_excl s2 = map (excl_of c fs) [root] /\ f_queue s2 = [] /\ inv fs (idx_lt (fst root)) (f_fs s2) /\
     f_out s2 = filter (wanted c fs) [root]).
  { cbn [flt_event f_fs f_excl f_queue f_out].
    pose proof (sel_ok c (fun _ => True) (idx_lt (fst root)) (item_rp c root) fs (fun _ _ => I) (fun j H => H) Exclude) as Ok.
    pose proof (sel_reset c false (item_rp c root) fs Exclude) as Rs.
    assert (W : wanted c fs root = match decide_item c fs root with Some Include => true | _ => false end) by reflexivity.
    assert (X : excl_of c fs root = match decide_item c fs root with Some Exclude => true | _ => false end) by reflexivity.
    unfold decide_item in D0, W, X. unfold select_default in *.
    destruct (sel_loop c false (item_rp c root) fs Exclude) as [o fs2]. cbn [fst snd] in *.
    assert (Iv : inv fs (idx_lt (fst root)) fs2).
    { split; [|congruence]. apply Ok. rewrite <- F0. clear. induction fs as [|f fs IH]; constructor; [|exact IH].
      destruct f; cbn; tauto. }
    cbn [filter map]. rewrite W, X. destruct D0 as [->| ->]; eexists; (split; [reflexivity|]); cbn [f_excl f_queue f_fs f_out]; auto. }
  destruct Rt as [s2 [E2 [X2 [Q2 [I2 O2]]]]].
  destruct (flt_run c fs T F0 (root :: l) NS He l (fst root) [root] s2) as [ev [s' [R [Ev O]]]]; auto.
  { intros x Hx; now right. }
  { intros d [<-|[]]. split; [now left|exact Dr]. }
  { exists root, []. auto. }
  change (map fst [root]) with [fst root] in R. unfold fast_item in R. rewrite R.
  change ([Start root] ++ ev) with (Start root :: ev). cbn [flt_events]. rewrite E2, Ev. cbn [option_map].
  rewrite O, O2. f_equal. change (root :: l) with ([root] ++ l). rewrite filter_app. reflexivity.
Qed.
Print Assumptions C17_filter.

(** ** C18: the prefilter on names *)

(** A name rejected by the prefilter would have been rejected with the file in hand. *)
Theorem C18_prefilter_sound : forall c fs i t,
  Forall tame fs ->
  fst (select_filename c fs (minimal_rp c i)) = Some Exclude ->
  decide c fs i t = Some Exclude.
Proof.
  intros c fs i t T H. unfold decide, select_default.
  eapply prefilter_sound; [| | |exact T|exact H]; [split; reflexivity|reflexivity|discriminate].
Qed.
Print Assumptions C18_prefilter_sound.

(** The prefilter raises no exception, and the whole iteration selects what the
    options say about the files themselves. *)
Theorem C18_prefilter_harmless : forall c ri ns opts fs root,
  parse_selection_args c ri ns opts = Some fs -> Forall tame fs ->
  wf_tree root -> t_isdir root = true ->
  (forall i, fst (select_filename c fs (minimal_rp c i)) <> None) /\
  exists n o, select_iter c n fs root = Some (Some (([], root) :: o)) /\
    forall i t, In (i, t) o <-> chosen (fun i t => fst (select_default c fs (real_rp c i t))) [] (t_ch root) i t.
Proof.
  intros c ri ns opts fs root P T Wf Dr. split.
  - intros i. unfold select_filename. apply sel_no_raise; [exact T|now left].
  - destruct (C17_tree_selection _ _ _ _ _ _ P T Wf Dr) as [n [o [E [_ H]]]]. exists n, o. split; [exact E|exact H].
Qed.
Print Assumptions C18_prefilter_harmless.

(** *** Concrete cases *)
Definition fi (k : fkind) : finfo := mk_finfo k 1.
Definition file0 : ftree := FT (fi (KReg 5)) [].
Definition dir0 (ch : list (bytes * ftree)) : ftree := FT (fi (KDir true)) ch.
Definition ctx0 : sctx := mk_sctx (bs "/b") (fun _ _ => false).
Definition names (r : option (option (list (idx * ftree)))) : option (option (list idx)) :=
  option_map (option_map (map fst)) r.
Definition run_opts (opts : list sopt) (t : ftree) : option (option (list idx)) :=
  match parse_selection_args ctx0 (t_info t) false opts with
  | Some fs => names (select_iter ctx0 100 fs t)
  | None => None
  end.
Definition tree1 : ftree :=
  dir0 [(bs "x", dir0 [(bs "p.py", file0); (bs "q.c", file0)]);
        (bs "rdiff-backup-data", dir0 [(bs "z.py", file0)]);
        (bs "a", dir0 [(bs "d", dir0 [(bs "n.c", file0)]); (bs "e", dir0 [(bs "m.py", file0)])]);
        (bs "f", file0)].

(** the hypotheses of the theorems are met by a tree with nested scanned directories *)
Example select_ex : run_opts [OGlob (bs "/b/**.py") true; OGlob (bs "**") false] tree1 =
  Some (Some [[]; [bs "a"]; [bs "a"; bs "e"]; [bs "a"; bs "e"; bs "m.py"]; [bs "x"]; [bs "x"; bs "p.py"]]).
Proof. vm_compute. reflexivity. Qed.
Example select_ex_hyps : plain_glob (bs "/b/**.py") /\ looks_like_glob (bs "/b/**.py") = true /\
  (exists fs, parse_selection_args ctx0 (t_info tree1) false [OGlob (bs "/b/**.py") true; OGlob (bs "**") false] = Some fs /\ Forall tame fs) /\
  wf_tree tree1.
Proof.
  split; [|split; [reflexivity|split]].
  - repeat split; try reflexivity; cbn; intuition discriminate.
  - eexists. split; [vm_compute; reflexivity|]. repeat constructor.
  - repeat (constructor; try (cbn; intuition discriminate)).
Qed.
Example select_list_ex :
  run_opts [OFilelist (bs "/b/a/e
/b/f") true; OGlob (bs "**") false] tree1 = Some (Some [[]; [bs "a"]; [bs "a"; bs "e"]; [bs "f"]]).
Proof. vm_compute. reflexivity. Qed.

(** --exclude-other-filesystems: the prefilter looks for the device of a file it has
    not looked at, and the backup of any directory with a file in it fails. *)
Theorem C18_other_filesystems_refuted : forall c ri ns root fs n x,
  parse_selection_args c ri ns [OOtherFs] = Some fs ->
  t_isdir root = true -> In x (t_ch root) -> fst x <> rbdir ->
  (forall y, In y (t_ch root) -> fst y <> rbdir) ->
  select_iter c (S n) fs root = Some None.
Proof.
  intros c ri ns root fs n x P Dr Hx _ Nr. injection P as <-.
  unfold select_iter. rewrite Dr. cbn [iter_run]. unfold iter_step. cbn [it_stack it_fs it_delayed].
  assert (G : forall l, l <> [] -> (forall y, In y l -> fst y <> rbdir) -> gen_next c [rbdir_sf; SfOtherFs (fi_dev ri) false] [] l = GRaise).
  { intros [|[m t] l] Ne Nl; [congruence|]. cbn [gen_next]. unfold select_filename. cbn [sel_loop].
    change (true && negb (check_filename rbdir_sf) && negb (sf_exclude rbdir_sf)) with false. cbv iota.
    pose proof (rbdir_says c (minimal_rp c ([] ++ [m]))) as R. unfold says in R.
    destruct (call c rbdir_sf (minimal_rp c ([] ++ [m]))) as [r0 f0]. cbn [fst rp_index minimal_rp app] in R.
    assert (E : is_prefix [rbdir] [m] = false).
    { destruct (is_prefix [rbdir] [m]) eqn:E; [|reflexivity]. apply is_prefix_spec in E as [q E].
      injection E as E _. destruct (Nl (m, t)); [now left|exact E]. }
    rewrite E in R. subst r0. reflexivity. }
  assert (Pm := sort_perm (t_ch root)).
  rewrite G; [reflexivity| |].
  - intros E. rewrite E in Pm. apply Permutation_nil in Pm. rewrite Pm in Hx. exact Hx.
  - intros y Hy. apply Nr. eapply Permutation_in; eauto.
Qed.
Print Assumptions C18_other_filesystems_refuted.

(** A file list with including and excluding lines: the prefilter uses up the line
    "+ /b/f", and the file is not selected although the options include it. *)
Definition opts_mixed : list sopt := [OFilelist (bs "+ /b/f
- /b/x") true; OGlob (bs "**") false].
Theorem C18_mixed_file_list_refuted :
  exists fs, parse_selection_args ctx0 (t_info tree1) false opts_mixed = Some fs /\
    decide ctx0 fs [bs "f"] file0 = Some Include /\
    run_opts opts_mixed tree1 = Some (Some [[]]).
Proof. eexists. split; [vm_compute; reflexivity|]. split; vm_compute; reflexivity. Qed.
Print Assumptions C18_mixed_file_list_refuted.

(** An excluding line hides the including lines after it: /b/a/e is listed with "+",
    but the directory /b/a is not included because "- /b/a/d" comes first. *)
Theorem C16_mixed_list_parent_refuted :
  let f := filelist_sf ctx0 false (bs "- /b/a/d
+ /b/a/e") true in
  let f' := filelist_sf ctx0 false (bs "+ /b/a/e
- /b/a/f") true in
  says ctx0 f (real_rp ctx0 [bs "a"] (dir0 [])) = Says None /\
  says ctx0 f' (real_rp ctx0 [bs "a"] (dir0 [])) = Says (Some Include).
Proof. split; vm_compute; reflexivity. Qed.

(** A file name ending in a newline is matched by the glob without it. *)
Theorem C16_trailing_newline_refuted :
  exists f, glob_sf ctx0 (bs "/b/f*o") false = Some f /\
    says ctx0 f (mk_srp [bs "fo" ++ [nl]] (bs "/b/fo" ++ [nl]) (Some (fi (KReg 1)))) = Says (Some Exclude) /\
    ~ glob_matches (bs "/b/f*o") (bs "/b/fo" ++ [nl]).
Proof.
  eexists. split; [vm_compute; reflexivity|]. split; [vm_compute; reflexivity|].
  intros H. assert (N : no_br (bs "/b/f*o")) by (split; cbn; intuition discriminate).
  destruct (glob_toks_ok _ N) as [t [Et Ht]]. apply Ht in H.
  assert (G : gm false t (fun s => match s with [] => true | _ => false end) (bs "/b/fo" ++ [nl]) = true).
  { apply gm_spec. exists (bs "/b/fo" ++ [nl]), []. rewrite app_nil_r. auto. }
  vm_compute in Et. injection Et as <-. vm_compute in G. discriminate.
Qed.

(** Negated brackets match a slash, and an escaped star before a star hides the rest of
    the glob from the scan: the file matches, but the directory above it is neither
    included nor scanned, so that the file is not selected. *)
Definition tree2 : ftree := dir0 [(bs "x", dir0 [(bs "y", file0)])].
Theorem C17_bracket_parent_refuted :
  exists f, glob_sf ctx0 (bs "/b/x[!a]y") true = Some f /\
    says ctx0 f (real_rp ctx0 [bs "x"; bs "y"] file0) = Says (Some Include) /\
    says ctx0 f (real_rp ctx0 [bs "x"] (dir0 [])) = Says None /\
    run_opts [OGlob (bs "/b/x[!a]y") true; OGlob (bs "**") false] tree2 = Some (Some [[]]).
Proof. eexists. repeat split; vm_compute; reflexivity. Qed.
Definition tree3 : ftree := dir0 [(bs "*q", dir0 [(bs "x", dir0 [(bs "y", file0)])])].
Theorem C17_escaped_star_refuted :
  let g := bs "/b/" ++ [c_bs] ++ bs "**/x/y" in
  exists f, glob_sf ctx0 g true = Some f /\
    says ctx0 f (real_rp ctx0 [bs "*q"; bs "x"; bs "y"] file0) = Says (Some Include) /\
    says ctx0 f (real_rp ctx0 [bs "*q"; bs "x"] (dir0 [])) = Says None /\
    run_opts [OGlob g true; OGlob (bs "**") false] tree3 = Some (Some [[]]).
Proof. eexists. repeat split; vm_compute; reflexivity. Qed.

(** Filtering a listing does not do what selecting from a tree does. *)
Fixpoint items (fuel : nat) (d : idx) (t : ftree) : list (idx * finfo) :=
  match fuel with
  | O => []
  | S k => (d, t_info t) :: concat (map (fun '(n, u) => items k (d ++ [n]) u) (sort_names (t_ch t)))
  end.
Definition filter_opts (opts : list sopt) (t : ftree) : option (option (list idx)) :=
  match parse_selection_args ctx0 (t_info t) false opts with
  | Some fs => Some (option_map (map fst) (filter_iter ctx0 fs (items 10 [] t)))
  | None => None
  end.
(** a directory scanned in vain is shown when something is included later *)
Definition tree4 : ftree := dir0 [(bs "a", dir0 []); (bs "z.py", file0)].
Definition tree8 : ftree := dir0 [(bs "a", dir0 []); (bs "b", dir0 []); (bs "z.py", file0)].
Theorem C17_filter_scanned_directory_refuted :
  run_opts [OGlob (bs "/b/**.py") true; OGlob (bs "**") false] tree4 = Some (Some [[]; [bs "z.py"]]) /\
  filter_opts [OGlob (bs "/b/**.py") true; OGlob (bs "**") false] tree4 = Some (Some [[]; [bs "a"]; [bs "z.py"]]) /\
  (* but only the last of them *)
  filter_opts [OGlob (bs "/b/**.py") true; OGlob (bs "**") false] tree8 = Some (Some [[]; [bs "b"]; [bs "z.py"]]).
Proof. repeat split; vm_compute; reflexivity. Qed.
(** a file with the name of a directory to be scanned stops the restore *)
Definition tree5 : ftree := dir0 [(bs "a", file0); (bs "z", file0)].
Theorem C17_filter_scanned_file_refuted :
  run_opts [OGlob (bs "/b/a/*.py") true; OGlob (bs "**") false] tree5 = Some (Some [[]]) /\
  filter_opts [OGlob (bs "/b/a/*.py") true; OGlob (bs "**") false] tree5 = Some None.
Proof. split; vm_compute; reflexivity. Qed.
(** so does any file that is neither included nor excluded before a glob with "**" *)
Definition tree7 : ftree := dir0 [(bs "n.c", file0); (bs "z.py", file0)].
Theorem C17_filter_double_star_refuted :
  run_opts [OGlob (bs "/b/**.py") true; OGlob (bs "**") false] tree7 = Some (Some [[]; [bs "z.py"]]) /\
  filter_opts [OGlob (bs "/b/**.py") true; OGlob (bs "**") false] tree7 = Some None.
Proof. split; vm_compute; reflexivity. Qed.
(** what lies deeper in an excluded directory is shown *)
Definition ends_in_a (p : bytes) : bool := match rev p with x :: _ => Ascii.eqb x "a" | [] => false end.
Definition tree6 : ftree := dir0 [(bs "a", dir0 [(bs "d", dir0 [(bs "f", file0)]); (bs "g", file0)])].
Theorem C17_filter_excluded_directory_refuted :
  run_opts [ORegexp ends_in_a false] tree6 = Some (Some [[]]) /\
  filter_opts [ORegexp ends_in_a false] tree6 = Some (Some [[]; [bs "a"; bs "d"]; [bs "a"; bs "d"; bs "f"]]).
Proof. split; vm_compute; reflexivity. Qed.
(** the hypotheses of C17_filter are met *)
Example filter_ex : filter_opts [OGlob (bs "/b/a") false] tree1 =
  Some (Some [[]; [bs "f"]; [bs "x"]; [bs "x"; bs "p.py"]; [bs "x"; bs "q.c"]]).
Proof. vm_compute. reflexivity. Qed.
