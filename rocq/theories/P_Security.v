(** * C19, C20: what a restricted server executes *)
From Coq Require Import List ZArith Bool Ascii Lia.
From Verif Require Import Base L_Base M_Security S_Security.
Import List ListNotations.
Local Open Scope Z_scope.

(** ** Paths *)
Lemma walk_app h a b : walk h (a ++ b) = walk (walk h a) b.
Proof. revert h; induction a as [|x a IH]; intro h; [reflexivity|]. cbn [app walk]. apply IH. Qed.

Lemma real_comp_false n : real_comp n = false -> beq_bytes n [] || beq_bytes n (bs ".") = true.
Proof.
  intros H. destruct n as [|c r]; [reflexivity|]. unfold real_comp in H.
  apply negb_false_iff in H. apply orb_true_iff. right. exact H.
Qed.
Lemma real_comp_true n : real_comp n = true -> beq_bytes n [] || beq_bytes n (bs ".") = false.
Proof.
  intros H. destruct n as [|c r]; [discriminate|]. unfold real_comp in H.
  apply negb_true_iff in H. apply orb_false_iff. split; [reflexivity|exact H].
Qed.

Lemma walk_filter h l : walk h l = walk h (filter real_comp l).
Proof.
  revert h; induction l as [|n l IH]; intro h; [reflexivity|].
  cbn [walk filter]. destruct (real_comp n) eqn:E.
  - cbn [walk]. apply IH.
  - rewrite (real_comp_false _ E). apply IH.
Qed.

Lemma walk_nodots h l : ~ In dotdot l -> walk h l = h ++ filter real_comp l.
Proof.
  revert h; induction l as [|n l IH]; intros h H; [cbn; now rewrite app_nil_r|].
  cbn [walk filter]. destruct (real_comp n) eqn:E.
  - rewrite (real_comp_true _ E).
    destruct (beq_bytes n (bs "..")) eqn:D.
    + apply beq_bytes_true in D. subst n. exfalso. apply H. now left.
    + rewrite IH by (intros X; apply H; now right). rewrite <- app_assoc. reflexivity.
  - rewrite (real_comp_false _ E). apply IH. intros X; apply H; now right.
Qed.

Lemma os_join_slashfree l : forall p,
  (forall x, In x l -> x <> [] /\ ~ In slash x) -> l <> [] -> p <> [] ->
  (match rev p with c :: _ => Ascii.eqb c slash | [] => false end) = false ->
  os_join p l = p ++ slash :: join_with [slash] l.
Proof.
  induction l as [|b r IH]; intros p H Ne Np Lp; [congruence|].
  destruct (H b (or_introl eq_refl)) as [Nb Sb]. cbn [os_join].
  destruct b as [|c b]; [congruence|].
  destruct (Ascii.eqb_spec c slash) as [->|Nc]; [exfalso; apply Sb; now left|].
  destruct p as [|d p]; [congruence|]. rewrite Lp.
  destruct r as [|b2 r].
  - reflexivity.
  - rewrite IH; [|intros x Hx; apply H; now right|discriminate|destruct p; discriminate|].
    + rewrite <- app_assoc. reflexivity.
    + rewrite rev_app_distr. cbn [rev]. rewrite <- app_assoc.
      assert (X : match rev b ++ [c] with c0 :: _ => Ascii.eqb c0 slash | [] => false end = false).
      { destruct (rev b) as [|e b'] eqn:E.
        - cbn. now apply Ascii.eqb_neq.
        - cbn. apply Ascii.eqb_neq. intros ->. apply Sb. right. apply in_rev. rewrite E. now left. }
      destruct (rev b ++ [c]) as [|e b'] eqn:E; [destruct (rev b); discriminate|]. exact X.
Qed.

Lemma os_join_nil l : (forall x, In x l -> x <> [] /\ ~ In slash x) -> os_join [] l = join_with [slash] l.
Proof.
  intros H. destruct l as [|b r]; [reflexivity|]. cbn [os_join].
  destruct (H b (or_introl eq_refl)) as [Nb Sb]. destruct b as [|c b]; [congruence|].
  destruct (Ascii.eqb_spec c slash) as [->|Nc]; [exfalso; apply Sb; now left|].
  destruct r as [|b2 r]; [reflexivity|].
  rewrite os_join_slashfree; [reflexivity|intros x Hx; apply H; now right|discriminate|discriminate|].
  cbn [rev]. destruct (rev b) as [|e b'] eqn:E; cbn.
  - now apply Ascii.eqb_neq.
  - apply Ascii.eqb_neq. intros ->. apply Sb. right. apply in_rev. rewrite E. now left.
Qed.

Definition comps (p : bytes) : list bytes := filter real_comp (split_on slash p).
Lemma comps_ok p x : In x (comps p) -> x <> [] /\ ~ In slash x.
Proof.
  intros H. apply filter_In in H as [H E]. split.
  - intros ->. discriminate.
  - eapply split_on_no_sep_in; eauto.
Qed.

(** what the normalised path consists of *)
Lemma split_join_comps p : comps p <> [] -> split_on slash (os_join [] (comps p)) = comps p.
Proof.
  intros N. rewrite os_join_nil by apply comps_ok. apply split_join; [exact N|].
  intros x Hx. now apply comps_ok in Hx.
Qed.

Lemma normalize_comps p : filter real_comp (split_on slash (normalize p)) = comps p.
Proof.
  unfold normalize. fold (comps p).
  assert (I : filter real_comp (comps p) = comps p).
  { unfold comps. induction (split_on slash p) as [|x l IH]; [reflexivity|]. cbn [filter].
    destruct (real_comp x) eqn:E; [|exact IH]. cbn [filter]. now rewrite E, IH. }
  assert (S0 : filter real_comp (split_on slash (os_join [] (comps p))) = comps p).
  { destruct (comps p) as [|x l] eqn:E; [reflexivity|]. rewrite <- E in *.
    rewrite split_join_comps by congruence. exact I. }
  assert (S1 : forall q, split_on slash (slash :: q) = [] :: split_on slash q) by reflexivity.
  destruct (starts_slash p).
  - destruct (windows_share p); rewrite !S1; cbn [filter real_comp]; exact S0.
  - destruct (os_join [] (comps p)) as [|c r] eqn:E; [|exact S0].
    rewrite <- S0. reflexivity.
Qed.

Lemma normalize_ne p : normalize p <> [].
Proof.
  unfold normalize. destruct (starts_slash p); [destruct (windows_share p); discriminate|].
  destruct (os_join [] _); [discriminate|congruence].
Qed.

Lemma normalize_slash p : starts_slash (normalize p) = starts_slash p.
Proof.
  unfold normalize. destruct (starts_slash p) eqn:E.
  - destruct (windows_share p); reflexivity.
  - fold (comps p). rewrite os_join_nil by apply comps_ok.
    pose proof (comps_ok p) as C. destruct (comps p) as [|x l]; [reflexivity|].
    destruct (C x (or_introl eq_refl)) as [Nx Sx]. destruct x as [|c x]; [congruence|].
    assert (F : Ascii.eqb c slash = false) by (apply Ascii.eqb_neq; intros ->; apply Sx; now left).
    destruct l; exact F.
Qed.

Lemma place_eq cwd p : place cwd p = walk (if starts_slash p then [] else cwd) (split_on slash p).
Proof. destruct p as [|c r]; [reflexivity|]. cbn [place starts_slash]. unfold slash. destruct (Ascii.eqb c "/"); reflexivity. Qed.

Lemma place_normalize cwd p : place cwd (normalize p) = place cwd p.
Proof.
  rewrite !place_eq, normalize_slash, walk_filter, normalize_comps. symmetry. apply walk_filter.
Qed.

Lemma list_prefix_true a b : list_prefix a b = true -> exists q, b = a ++ q.
Proof.
  revert b; induction a as [|x a IH]; intros b H; [now exists b|].
  destruct b as [|y b]; [discriminate|]. cbn [list_prefix] in H. apply andb_true_iff in H as [E H].
  apply beq_bytes_true in E. subst y. destruct (IH _ H) as [q ->]. now exists q.
Qed.

Lemma split_first p : p <> [] -> (exists l, split_on slash p = [] :: l) <-> starts_slash p = true.
Proof.
  intros N. destruct p as [|c r]; [congruence|]. cbn [split_on starts_slash].
  destruct (Ascii.eqb c slash); [split; [auto|eauto]|].
  destruct (split_on slash r); split; try discriminate; intros [l2 H]; discriminate.
Qed.

Lemma mem_bytes_In x l : mem_bytes x l = true <-> In x l.
Proof.
  unfold mem_bytes. rewrite existsb_exists. split.
  - intros [y [H E]]. apply beq_bytes_true in E. now subst.
  - intros H. exists x. split; [exact H|]. now apply beq_bytes_true.
Qed.

Lemma under_trans a b c : under a b -> under b c -> under a c.
Proof. intros H1 H2 cwd. destruct (H1 cwd) as [q1 E1], (H2 cwd) as [q2 E2]. exists (q1 ++ q2). now rewrite E2, E1, app_assoc. Qed.
Lemma under_refl a : under a a.
Proof. intros cwd. exists []. now rewrite app_nil_r. Qed.
Lemma under_normalize d p : under d (normalize p) <-> under d p.
Proof. split; intros H cwd; destruct (H cwd) as [q E]; exists q; [rewrite <- place_normalize|rewrite place_normalize]; exact E. Qed.
Lemma under_normalize_l d p : under (normalize d) p <-> under d p.
Proof. split; intros H cwd; destruct (H cwd) as [q E]; exists q; [rewrite <- (place_normalize cwd d)|rewrite (place_normalize cwd d)]; exact E. Qed.

(** *** the path check *)
Lemma vet_path_sound r p : vet_path (normalize r) p = true -> under r p.
Proof.
  intros H. apply under_normalize, under_normalize_l. intros cwd.
  unfold vet_path in H. destruct (mem_bytes dotdot (split_on slash (normalize p))) eqn:D; [discriminate|].
  assert (ND : ~ In dotdot (split_on slash (normalize p))) by (rewrite <- mem_bytes_In; congruence).
  destruct (beq_bytes (normalize r) (bs "/")) eqn:R.
  - apply beq_bytes_true in R. rewrite R. exists (place cwd (normalize p)). reflexivity.
  - apply list_prefix_true in H as [q E].
    assert (Sl : starts_slash (normalize p) = starts_slash (normalize r)).
    { pose proof (split_first _ (normalize_ne p)) as A. pose proof (split_first _ (normalize_ne r)) as B.
      rewrite E in A. pose proof (split_on_nonempty slash (normalize r)) as Ne.
      destruct (split_on slash (normalize r)) as [|x l]; [congruence|].
      destruct x as [|c x].
      - rewrite (proj1 A) by (exists (l ++ q); reflexivity). symmetry. apply (proj1 B). now exists l.
      - destruct (starts_slash (normalize p)); [destruct (proj2 A eq_refl); discriminate|].
        destruct (starts_slash (normalize r)); [destruct (proj2 B eq_refl); discriminate|reflexivity]. }
    rewrite !place_eq, Sl, E, walk_app.
    rewrite E in ND. exists (filter real_comp q). apply walk_nodots.
    intros X. apply ND. apply in_or_app. now right.
Qed.

(** ** C19 *)

(** the paths a request names: the local path objects among the arguments, and the
    file name of the requests taking one *)
Definition takes_file_name (f : bytes) : Prop :=
  In f [bs "rpath.make_file_dict"; bs "_repo_shadow.RepoShadow.init"; bs "_dir_shadow.ReadDirShadow.init"; bs "_dir_shadow.WriteDirShadow.init"].
Definition names_path (f : bytes) (args : list arg) (p : bytes) : Prop :=
  (exists b i, In (ARPath true b i) args /\ p = rp_path b i) \/
  (takes_file_name f /\ exists a rest, args = a :: rest /\ filename_of a = Some p).
Lemma takes_file_request f : takes_file_name f -> file_request f file_requests = Some O.
Proof. intros H; repeat (destruct H as [<-|H]; [reflexivity|]); destruct H. Qed.

Lemma vet_request_paths s r f args p :
  s_level s <> LOverride -> s_restrict s = Some (normalize r) -> s_conn_ok s = true ->
  vet_request s f args = VAccept -> names_path f args p -> under r p.
Proof.
  intros L R C V N. unfold vet_request in V.
  assert (P : vet_paths s f args = VAccept) by (destruct (s_level s); try congruence; destruct (vet_paths s f args); congruence).
  unfold vet_paths in P. rewrite R in P.
  destruct (forallb (vet_arg s (normalize r)) args) eqn:A; [|discriminate].
  destruct N as [[b [i [I ->]]]|[Fr [a [rest [Nt Fa]]]]].
  - rewrite forallb_forall in A. apply A in I. cbn [vet_arg] in I. rewrite C in I. now apply vet_path_sound.
  - apply takes_file_request in Fr. rewrite Fr in P. unfold vet_filename in P. rewrite Nt in P. cbn [nth_error] in P. rewrite Fa, C in P.
    destruct (vet_path (normalize r) p) eqn:E; [now apply vet_path_sound|discriminate].
Qed.

(** A request executed by a process restricted to [r] names only paths in [r]. *)
Theorem C19_executed_paths : forall fb s r q p,
  s_level s <> LOverride -> s_restrict s = Some (normalize r) -> s_conn_ok s = true ->
  fst (answer fb s q) = Executed q -> names_path (r_fun q) (r_args q) p -> under r p.
Proof.
  intros fb s r q p L R C E N. unfold answer in E.
  destruct (vet_request s (r_fun q) (r_args q)) eqn:V; try discriminate.
  eapply vet_request_paths; eauto.
Qed.
Print Assumptions C19_executed_paths.

(** [..] in a path, even if it stays inside, is always denied; and nothing is executed *)
Lemma dotdot_in_normalize p : In dotdot (split_on slash p) -> In dotdot (split_on slash (normalize p)).
Proof.
  intros H. assert (X : In dotdot (comps p)) by (apply filter_In; split; [exact H|reflexivity]).
  rewrite <- normalize_comps in X. now apply filter_In in X.
Qed.
Theorem C19_dotdot_denied : forall fb s r q p,
  s_level s <> LOverride -> s_restrict s = Some r -> s_conn_ok s = true ->
  names_path (r_fun q) (r_args q) p -> In dotdot (split_on slash p) ->
  exists v, answer fb s q = (Refused v, s).
Proof.
  intros fb s r q p L R C N D. apply dotdot_in_normalize in D.
  assert (V : vet_path r p = false).
  { unfold vet_path. apply mem_bytes_In in D. now rewrite D. }
  unfold answer, vet_request.
  assert (P : vet_paths s (r_fun q) (r_args q) <> VAccept).
  { unfold vet_paths. rewrite R. destruct (forallb (vet_arg s r) (r_args q)) eqn:A; [|discriminate].
    destruct N as [[b [i [I ->]]]|[Fr [a [rest [Nt Fa]]]]].
    - rewrite forallb_forall in A. apply A in I. cbn [vet_arg] in I. rewrite C in I. cbn [andb] in I. congruence.
    - apply takes_file_request in Fr. rewrite Fr. unfold vet_filename. rewrite Nt. cbn [nth_error]. rewrite Fa, C, V. discriminate. }
  destruct (s_level s) eqn:Lv; try congruence; destruct (vet_paths s (r_fun q) (r_args q)); try congruence; eexists; reflexivity.
Qed.
Print Assumptions C19_dotdot_denied.

(** Whatever the sequence of requests: as long as no request overwrites
    specifics.local_connection, and the repositories found lie in [r] themselves, all
    the paths ever named in executed requests lie in [r]. *)
Theorem C19_history : forall fb tmp lv r l,
  r <> [] -> lv <> LOverride ->
  (forall p b, under r p -> fb p = Some b -> under r b) ->
  (forall q, In q l -> r_fun q = f_set -> forall a, hd_error (r_args q) = Some (AStr a) -> a <> bs "local_connection") ->
  exists s, initialize tmp CServer lv (Some r) [] = Some s /\
  forall q p, In (Executed q) (fst (serve fb s l)) -> names_path (r_fun q) (r_args q) p -> under r p.
Proof.
  intros fb tmp lv r l Nr Lo Fb. unfold initialize. cbn [set_security_level].
  destruct r as [|c0 r0]; [congruence|]. set (r := c0 :: r0) in *.
  set (s0 := reset_restrict _ _). intros Hs. exists s0. split; [reflexivity|].
  assert (Inv : s_level s0 <> LOverride /\ (exists r1, s_restrict s0 = Some (normalize r1) /\ under r r1) /\
                s_conn_ok s0 = true /\ (forall b, s_base s0 = Some b -> under r b)).
  { unfold s0, reset_restrict. cbn [s_level s_restrict s_conn_ok s_base]. split; [exact Lo|]. split; [|split; [reflexivity|discriminate]].
    exists r. split; [|apply under_refl]. pose proof (normalize_ne r) as N. unfold opt_path. destruct (normalize r); congruence. }
  clearbody s0. revert s0 Inv Hs. induction l as [|q l IH]; intros s Inv Hs q0 p H; [destruct H|].
  destruct Inv as [L [[r1 [R U]] [C B]]].
  cbn [serve] in H. destruct (answer fb s q) as [d s1] eqn:A. destruct (serve fb s1 l) as [ds s2] eqn:Sv.
  cbn [fst] in H. unfold answer in A.
  destruct H as [H|H].
  - subst d. destruct (vet_request s (r_fun q) (r_args q)) eqn:V; [|discriminate|discriminate].
    assert (q0 = q) by congruence. subst q0. intros Np. eapply under_trans; [exact U|]. eapply vet_request_paths; eauto.
  - apply (IH s1) with (q := q0); [| |rewrite Sv; exact H].
    + destruct (vet_request s (r_fun q) (r_args q)) eqn:V; injection A as <- <-.
      2,3: (repeat split; eauto).
      unfold run_effect.
      destruct (beq_bytes (r_fun q) f_init_repo) eqn:E1; [|destruct (beq_bytes (r_fun q) f_setup_repo) eqn:E2;
        [|destruct (beq_bytes (r_fun q) f_set) eqn:E3]].
      * destruct (r_args q) as [|a rest] eqn:Ea; [repeat split; eauto|].
        destruct a as [lo b i| | | |]; try (repeat split; eauto; fail).
        destruct lo; [|repeat split; eauto].
        assert (Up : under r (rp_path b i)).
        { eapply under_trans; [exact U|]. eapply vet_request_paths; eauto. left. exists b, i. split; [now left|reflexivity]. }
        cbn [s_level s_restrict s_conn_ok s_base]. split; [exact L|]. split; [eauto|]. split; [exact C|].
        intros b0 Hb. destruct (nth_error rest 3) as [[| | |[]|]|]; try (injection Hb as <-; exact Up).
        eapply Fb; eauto.
      * destruct (s_base s) as [b|] eqn:Eb; [|repeat split; eauto; rewrite Eb; discriminate].
        destruct (r_ok q && s_conn_ok s); [|repeat split; eauto; intros ? X; rewrite Eb in X; auto].
        cbn [reset_restrict s_level s_restrict s_conn_ok s_base]. split; [exact L|]. split; [|split; [exact C|]].
        -- exists b. split; [|now apply B]. pose proof (normalize_ne b) as N. unfold opt_path. destruct (normalize b); congruence.
        -- intros b0 X. apply B. congruence.
      * destruct (r_args q) as [|a rest] eqn:Ea; [repeat split; eauto|].
        destruct a as [| g | | |]; try (repeat split; eauto; fail).
        destruct (beq_bytes g (bs "local_connection")) eqn:G; [|repeat split; eauto].
        exfalso. apply beq_bytes_true in G, E3. apply (Hs q (or_introl eq_refl) E3 g); [now rewrite Ea|exact G].
      * repeat split; eauto.
    + intros q1 Hq. apply Hs. now right.
Qed.
Print Assumptions C19_history.

(** *** Concrete cases *)
Definition srv (lv : level) (r : bytes) : sec :=
  mk_sec lv (Some (normalize r)) (allowed_requests CServer lv) true None false.
Definition no_base (p : bytes) : option bytes := None.
Definition req_init (p : bytes) (sub : bool) : request :=
  mk_req f_init_repo [ARPath true p []; AOther; ABool false; ABool true; ABool sub] true.
Example vet_ex_inside : fst (answer no_base (srv LReadOnly (bs "/b/repo/")) (req_init (bs "/b/./repo//x") false))
  = Executed (req_init (bs "/b/./repo//x") false).
Proof. vm_compute. reflexivity. Qed.
Example vet_ex_outside : fst (answer no_base (srv LReadOnly (bs "/b/repo/")) (req_init (bs "/b/repo2") false)) = Refused VViolation.
Proof. vm_compute. reflexivity. Qed.
Example vet_ex_relative : fst (answer no_base (srv LReadOnly (bs "repo")) (req_init (bs "./repo/x") false)) =
  Executed (req_init (bs "./repo/x") false).
Proof. vm_compute. reflexivity. Qed.

(** rpath.get_rpath_data (formerly make_file_dict) takes a file name, but is not in the
    list of file requests: a restricted server tells about any file. *)
Theorem C19_stat_anything_refuted : forall lv fb r p,
  In lv [LReadOnly; LUpdateOnly; LReadWrite] ->
  let q := mk_req (bs "rpath.get_rpath_data") [ABytes p; ABytes p; AOther] true in
  answer fb (srv lv r) q = (Executed q, srv lv r).
Proof.
  intros lv fb r p H q. unfold answer.
  assert (V : vet_request (srv lv r) (r_fun q) (r_args q) = VAccept).
  { unfold vet_request, srv, vet_paths. cbn [s_level s_restrict s_allowed r_fun r_args q forallb vet_arg andb].
    destruct H as [<-|[<-|[<-|[]]]]; reflexivity. }
  rewrite V. reflexivity.
Qed.
Print Assumptions C19_stat_anything_refuted.

(** A request may overwrite specifics.local_connection; paths are not checked after it. *)
Theorem C19_local_connection_refuted :
  let s := srv LReadWrite (bs "/b") in
  let q1 := mk_req f_set [AStr (bs "local_connection"); AOther] true in
  let q2 := mk_req (bs "_repo_shadow.RepoShadow.remove_file") [ARPath true (bs "/etc") []] true in
  fst (answer no_base s q2) = Refused VViolation /\
  fst (serve no_base s [q1; q2]) = [Executed q1; Executed q2] /\ ~ under (bs "/b") (bs "/etc").
Proof.
  split; [vm_compute; reflexivity|]. split; [vm_compute; reflexivity|].
  intros H. destruct (H []) as [q E]. vm_compute in E. discriminate.
Qed.

(** Restricted to a directory within a repository, the server replaces the restriction
    by the whole repository (RepoShadow.setup). *)
Theorem C19_subpath_widens_refuted :
  let fb := fun p => if beq_bytes p (bs "/b/repo/mine") then Some (bs "/b/repo") else None in
  let s := srv LReadOnly (bs "/b/repo/mine") in
  let q3 := req_init (bs "/b/repo/other") true in
  let l := [req_init (bs "/b/repo/mine") true; mk_req f_setup_repo [] true; q3] in
  fst (answer fb s q3) = Refused VViolation /\
  fst (serve fb s l) = map Executed l /\ ~ under (bs "/b/repo/mine") (bs "/b/repo/other").
Proof.
  split; [vm_compute; reflexivity|]. split; [vm_compute; reflexivity|].
  intros H. destruct (H []) as [q E]. vm_compute in E. discriminate.
Qed.

(** Without restriction path the server takes paths from anywhere, ".." included, until
    a repository is set up; then it is restricted to this repository. *)
Theorem C19_restricted_after_setup : forall fb s b q,
  s_base s = Some b -> s_conn_ok s = true -> r_fun q = f_setup_repo -> r_ok q = true ->
  fst (answer fb s q) = Executed q ->
  s_restrict (snd (answer fb s q)) = Some (normalize b).
Proof.
  intros fb s b q B C F O E. unfold answer in *. destruct (vet_request s (r_fun q) (r_args q)); try discriminate.
  cbn [snd]. rewrite F, O. unfold run_effect.
  change (beq_bytes f_setup_repo f_init_repo) with false. change (beq_bytes f_setup_repo f_setup_repo) with true.
  cbv iota. rewrite B, C. cbn [andb reset_restrict s_restrict].
  pose proof (normalize_ne b) as N. unfold opt_path. destruct (normalize b); congruence.
Qed.
Print Assumptions C19_restricted_after_setup.

(** ** C20 *)
Lemma serve_level fb l : forall s ds s', serve fb s l = (ds, s') -> s_level s' = s_level s /\ s_allowed s' = s_allowed s.
Proof.
  induction l as [|q l IH]; intros s ds s' H; [injection H as <- <-; auto|].
  cbn [serve] in H. destruct (answer fb s q) as [d s1] eqn:A. destruct (serve fb s1 l) as [ds2 s2] eqn:Sv.
  injection H as <- <-. destruct (IH _ _ _ Sv) as [E1 E2]. rewrite E1, E2.
  unfold answer in A. destruct (vet_request s (r_fun q) (r_args q)); injection A as <- <-; auto.
  unfold run_effect. repeat match goal with |- context [match ?x with _ => _ end] => destruct x end; auto.
Qed.

(** Whatever is sent to a server in mode [lv] : it executes only requests of the list of
    this mode, or assignments of global settings other than "server". *)
Theorem C20_only_allowed : forall fb tmp lv rdir l,
  lv <> LOverride ->
  exists s, initialize tmp CServer lv rdir [] = Some s /\
  forall q, In (Executed q) (fst (serve fb s l)) ->
    In (r_fun q) (allowed_requests CServer lv) \/
    (In (r_fun q) [bs "generics.set_local"; bs "specifics.set"] /\
     exists a rest, r_args q = a :: rest /\ a <> AStr (bs "server")).
Proof.
  intros fb tmp lv rdir l Lo. unfold initialize. cbn [set_security_level]. eexists. split; [reflexivity|].
  match goal with |- context [serve fb ?x l] => set (s0 := x) end.
  assert (E : s_level s0 = lv /\ s_allowed s0 = allowed_requests CServer lv).
  { unfold s0. destruct rdir as [[|c r]|]; cbn; auto. }
  clearbody s0. revert s0 E. induction l as [|q l IH]; intros s [El Ea] q0 H; [destruct H|].
  cbn [serve] in H. destruct (answer fb s q) as [d s1] eqn:A. destruct (serve fb s1 l) as [ds2 s2] eqn:Sv.
  destruct H as [H|H].
  - subst d. unfold answer in A. destruct (vet_request s (r_fun q) (r_args q)) eqn:V; try discriminate.
    assert (q0 = q) by congruence. subst q0. unfold vet_request in V. rewrite El in V.
    assert (V' : (if mem_bytes (r_fun q) (s_allowed s) then VAccept
          else if mem_bytes (r_fun q) globals_requests then
            match r_args q with [] => VError | a :: _ => if is_disallowed a then VViolation else VAccept end
          else VViolation) = VAccept).
    { destruct lv; try congruence; destruct (vet_paths s (r_fun q) (r_args q)); congruence. }
    destruct (mem_bytes (r_fun q) (s_allowed s)) eqn:M.
    + left. rewrite <- Ea. now apply mem_bytes_In.
    + right. destruct (mem_bytes (r_fun q) globals_requests) eqn:G; [|discriminate].
      apply mem_bytes_In in G. split; [exact G|]. destruct (r_args q) as [|a rest]; [discriminate|].
      exists a, rest. split; [reflexivity|]. intros ->. vm_compute in V'. discriminate.
  - apply (IH s1).
    + assert (X : serve fb s [q] = ([d], s1)) by (cbn [serve]; now rewrite A).
      destruct (serve_level _ _ _ _ _ X) as [E1 E2]. now rewrite E1, E2.
    + rewrite Sv. exact H.
Qed.
Print Assumptions C20_only_allowed.

(** The lists of the modes, against the table of what the functions do: a read-only
    server offers no writing function, an update-only one neither destroying functions
    nor reading ones, and read-write offers everything the others do. *)
Definition disjoint (a b : list bytes) : Prop := forall x, In x a -> ~ In x b.
Lemma disjoint_dec a b : forallb (fun x => negb (mem_bytes x b)) a = true -> disjoint a b.
Proof. intros H x Hx Hb. rewrite forallb_forall in H. specialize (H _ Hx). apply mem_bytes_In in Hb. rewrite Hb in H. discriminate. Qed.
Lemma incl_dec_b a b : forallb (fun x => mem_bytes x b) a = true -> incl a b.
Proof. intros H x Hx. rewrite forallb_forall in H. now apply mem_bytes_In, H. Qed.
Theorem C20_modes : forall cl,
  disjoint (allowed_requests cl LReadOnly) writing /\
  disjoint (allowed_requests cl LMinimal) writing /\
  disjoint (allowed_requests cl LMinimal) reading /\
  disjoint (allowed_requests cl LUpdateOnly) destroying /\
  disjoint (allowed_requests cl LUpdateOnly) reading /\
  incl writing (allowed_requests cl LReadWrite) /\
  (forall lv, lv <> LOverride -> incl (allowed_requests cl lv) (allowed_requests cl LReadWrite)).
Proof.
  intros cl. assert (D := disjoint_dec). assert (I := incl_dec_b).
  repeat split; try (apply D); try (apply I); try (destruct cl; vm_compute; reflexivity).
  intros lv Lv. apply I. destruct lv; try congruence; destruct cl; vm_compute; reflexivity.
Qed.
Print Assumptions C20_modes.

(** Nothing which Python itself provides may be called (connection.py:126-131 would). *)
Theorem C20_no_builtins : forall cl lv f,
  In f [bs "open"; bs "eval"; bs "exec"; bs "compile"; bs "__import__"; bs "getattr"; bs "setattr"; bs "os.system"; bs "os.remove"; bs "os.unlink"; bs "os.chmod"] ->
  ~ In f (allowed_requests cl lv) /\ ~ In f globals_requests.
Proof.
  intros cl lv f H.
  assert (D1 : disjoint [bs "open"; bs "eval"; bs "exec"; bs "compile"; bs "__import__"; bs "getattr"; bs "setattr"; bs "os.system"; bs "os.remove"; bs "os.unlink"; bs "os.chmod"] (allowed_requests cl lv))
    by (apply disjoint_dec; destruct cl, lv; vm_compute; reflexivity).
  assert (D2 : disjoint [bs "open"; bs "eval"; bs "exec"; bs "compile"; bs "__import__"; bs "getattr"; bs "setattr"; bs "os.system"; bs "os.remove"; bs "os.unlink"; bs "os.chmod"] globals_requests)
    by (apply disjoint_dec; vm_compute; reflexivity).
  split; [now apply D1|now apply D2].
Qed.

(** The client's own restrictions while it talks to a server: a local source is only
    read, and below its own path; a local repository is only updated.  A client that neither backs up nor restores
    lets nobody do anything. *)
Theorem C20_client_validate : forall tmp lv r p ps,
  set_security_level tmp CValidate lv r (p :: ps) = Some (LMinimal, Some tmp).
Proof. reflexivity. Qed.
Print Assumptions C20_client_validate.
Theorem C20_client : forall tmp cl lv r cmd p1 p2,
  cmd <> [] -> In cl [CBackup; CRestore] ->
  set_security_level tmp cl lv r [mk_pair None p1; mk_pair (Some cmd) p2] = Some (LReadOnly, Some p1) /\
  set_security_level tmp cl lv r [mk_pair (Some cmd) p1; mk_pair None p2] =
    Some (match cl with CBackup => LUpdateOnly | _ => LReadWrite end, Some p2) /\
  set_security_level tmp cl lv r [mk_pair None p1; mk_pair None p2] = Some (LMinimal, Some tmp) /\
  set_security_level tmp cl lv r [mk_pair (Some cmd) p1; mk_pair (Some cmd) p2] = Some (LMinimal, Some tmp).
Proof.
  intros tmp cl lv r [|c cmd] p1 p2 Ne [<-|[<-|[]]]; try congruence; repeat split; reflexivity.
Qed.

(** The setting of global variables is open to everybody: settings are not protected
    in any mode (only the name "server" is). *)
Theorem C20_settings_open_refuted : forall fb lv r g,
  lv <> LOverride -> g <> bs "server" ->
  let q := mk_req (bs "generics.set_local") [AStr g; AOther] true in
  fst (answer fb (srv lv r) q) = Executed q.
Proof.
  intros fb lv r g Lo Ng q. unfold answer.
  assert (V : vet_request (srv lv r) (r_fun q) (r_args q) = VAccept).
  { unfold vet_request, srv, vet_paths. cbn [s_level s_restrict s_allowed r_fun r_args q forallb vet_arg andb].
    assert (Dg : is_disallowed (AStr g) = false).
    { cbn [is_disallowed]. destruct (mem_bytes g disallowed_server_globals) eqn:E; [|reflexivity].
      apply mem_bytes_In in E as [E|[]]. congruence. }
    destruct lv; try congruence; cbn -[is_disallowed]; rewrite ?Dg; reflexivity. }
  rewrite V. reflexivity.
Qed.

(** A read-only server sets up a repository for writing when asked for it. *)
Theorem C20_read_only_setup_refuted :
  let q1 := mk_req f_init_repo [ARPath true (bs "/b/x") []; AOther; ABool true; ABool false; ABool false] true in
  let q2 := mk_req f_setup_repo [] true in
  let s1 := snd (serve no_base (srv LReadOnly (bs "/b")) [q1]) in
  fst (serve no_base (srv LReadOnly (bs "/b")) [q1; q2]) = [Executed q1; Executed q2] /\ setup_creates s1 = true.
Proof. split; vm_compute; reflexivity. Qed.
