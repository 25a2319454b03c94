(** * C78: the repository is found from the path the user gives *)
From Coq Require Import List ZArith Bool Ascii Arith Lia.
From Verif Require Import Base L_Base M_Time L_Time M_IncName L_IncName M_Security S_Security P_Security
  M_RepoPath S_RepoPath L_RepoPath.
Import List ListNotations.

(** C78: a directory or file (not an increment, and without "..") is restored from
    the nearest repository holding it, with its place in this repository as index. *)
Theorem C78_nearest_repository : forall cwd tree listing q b idx,
  sees cwd tree listing -> ~ In (bs "..") (split_on "/" q) ->
  locate listing q = FSub b idx ->
  idx <> [] /\ nearest tree (place cwd q) (place cwd b) idx.
Proof.
  intros cwd tree ls q b idx E D H. unfold locate, repo_dirs in H.
  destruct (parse_increment_name (normalize q)) as [[[[[? ?] ?] ?] ?]|].
  { destruct (index_of _ _); [|discriminate]. destruct (inc_place _ _) as [[? ?]|]; [|discriminate].
    destruct (_ =? _)%nat; discriminate. }
  destruct (has_data ls (normalize q)) eqn:HD; [discriminate|].
  rewrite (has_repob cwd tree) in HD by exact E.
  destruct (normalize_cases q) as [(C & Nq)|(C & r & O & Nq & Sq)]; rewrite Nq in H.
  - destruct (starts_slash q) eqn:S1; cbn in H; [|discriminate].
    change (get_parent [slash]) with [slash] in H.
    rewrite (has_repob cwd tree), <- Nq in H by exact E. rewrite HD in H. discriminate.
  - rewrite split_pth in H by exact O.
    assert (D2 : ~ In M_Security.dotdot (comps q)).
    { intros I. apply D. unfold comps in I. now apply filter_In in I. }
    pose proof (search_good cwd tree ls r E (comps q) [] O D2) as G. cbn [List.length] in G. rewrite app_nil_r in G.
    assert (ST : (List.length (pref r ++ comps q) - 1)%nat = steps r (comps q)).
    { rewrite app_length. destruct r; cbn [pref List.length steps]; lia. }
    rewrite ST in H. rewrite H in G. destruct G as [(b' & c1 & c2 & F & Cc & N2 & Nr & P & Rp & W)|[F _]]; [|discriminate].
    rewrite app_nil_r in F. injection F as <- <-.
    rewrite <- place_normalize, Nq in HD. rewrite place_normalize, (place_pth _ _ _ O D2) in HD.
    split; [exact N2|]. rewrite <- (place_normalize cwd q), Nq, (place_pth _ _ _ O D2), P.
    split; [now rewrite Cc, app_assoc|]. split; [now apply repob_spec|].
    intros a a' A Na X. apply repob_spec in X. rewrite <- app_assoc in X. destruct a' as [|y a'].
    + rewrite app_nil_r in A. subst a. rewrite <- Cc in X. congruence.
    + rewrite (W a (y :: a') A Na) in X; [discriminate|discriminate].
Qed.
Print Assumptions C78_nearest_repository.

(** C78: a base directory is taken only where there is a repository, and then the
    path given is the base itself. *)
Theorem C78_base_is_a_repository : forall cwd tree listing q b,
  sees cwd tree listing -> locate listing q = FBase b ->
  place cwd b = place cwd q /\ repository_at tree (place cwd q).
Proof.
  intros cwd tree ls q b E H. unfold locate, repo_dirs in H.
  destruct (parse_increment_name (normalize q)) as [[[[[? ?] ?] ?] ?]|].
  { destruct (index_of _ _); [|discriminate]. destruct (inc_place _ _) as [[? ?]|]; [|discriminate].
    destruct (_ =? _)%nat; discriminate. }
  destruct (has_data ls (normalize q)) eqn:HD.
  - injection H as <-. split; [apply place_normalize|]. apply repob_spec.
    now rewrite (has_repob cwd tree), place_normalize in HD by exact E.
  - exfalso. now apply search_not_base in H.
Qed.
Print Assumptions C78_base_is_a_repository.

(** C78: a path which does not look like an increment is refused only when no
    repository holds it: none at the place itself, and none above -- of a relative
    path, above as far as the path names directories. *)
Theorem C78_refused_only_without_repository : forall cwd tree listing q,
  sees cwd tree listing -> ~ In (bs "..") (split_on "/" q) ->
  parse_increment_name (normalize q) = None -> locate listing q = FNone ->
  ~ repository_at tree (place cwd q) /\
  forall d rest, place cwd q = d ++ rest ->
    (starts_with (bs "/") q = true \/ (List.length cwd < List.length d)%nat) -> ~ repository_at tree d.
Proof.
  intros cwd tree ls q E D PN H. unfold locate, repo_dirs in H. rewrite PN in H.
  destruct (has_data ls (normalize q)) eqn:HD; [discriminate|].
  rewrite (has_repob cwd tree), place_normalize in HD by exact E.
  assert (W : ~ repository_at tree (place cwd q)) by (intros X; apply repob_spec in X; congruence).
  split; [exact W|]. intros d rest A L X.
  assert (SS : starts_with (bs "/") q = starts_slash q).
  { destruct q as [|c q]; [reflexivity|]. cbn. destruct (Ascii.eqb_spec c slash) as [->|N]; [destruct q; reflexivity|].
    change (Ascii.eqb "/"%char c && starts_with [] q = false).
    destruct (Ascii.eqb_spec "/"%char c) as [<-|]; [exfalso; now apply N|reflexivity]. }
  rewrite SS in L.
  destruct (normalize_cases q) as [(C & Nq)|(C & r & O & Nq & Sq)].
  - rewrite <- place_normalize, Nq in A. destruct (starts_slash q).
    + change (place cwd [slash]) with (@nil bytes) in A. destruct d; [|discriminate].
      apply W. rewrite <- place_normalize, Nq. exact X.
    + change (place cwd M_Security.dot) with cwd in A. destruct L as [L|L]; [discriminate|].
      rewrite A, app_length in L. lia.
  - rewrite Nq, split_pth in H by exact O.
    assert (D2 : ~ In M_Security.dotdot (comps q)).
    { intros I. apply D. unfold comps in I. now apply filter_In in I. }
    pose proof (search_good cwd tree ls r E (comps q) [] O D2) as G. cbn [List.length] in G. rewrite app_nil_r in G.
    assert (ST : (List.length (pref r ++ comps q) - 1)%nat = steps r (comps q)).
    { rewrite app_length. destruct r; cbn [pref List.length steps]; lia. }
    rewrite ST in H. rewrite H in G. destruct G as [(b' & c1 & c2 & F & _)|[_ G]]; [discriminate|].
    assert (PQ : place cwd q = root r cwd ++ comps q).
    { rewrite <- (place_normalize cwd q), Nq. now apply place_pth. }
    destruct rest as [|z rest]; [rewrite app_nil_r in A; congruence|].
    rewrite PQ in A.
    assert (K : exists a, d = root r cwd ++ a /\ comps q = a ++ z :: rest /\ (r = SRel -> a <> [])).
    { destruct r; cbn [root] in *.
      - rewrite Sq in L. destruct L as [L|L]; [discriminate|].
        exists (skipn (List.length cwd) d).
        assert (P1 : firstn (List.length cwd) d = cwd).
        { assert (X1 : firstn (List.length cwd) (d ++ z :: rest) = firstn (List.length cwd) d).
          { rewrite firstn_app. replace (List.length cwd - List.length d)%nat with 0%nat by lia. now rewrite app_nil_r. }
          rewrite <- X1, <- A. rewrite firstn_app, firstn_all, Nat.sub_diag, firstn_O. apply app_nil_r. }
        assert (P2 : d = cwd ++ skipn (List.length cwd) d) by (rewrite <- P1 at 1; symmetry; apply firstn_skipn).
        split; [exact P2|]. split.
        + rewrite P2, <- app_assoc in A. now apply app_inv_head in A.
        + intros _ N. rewrite N, app_nil_r in P2. rewrite P2 in L. lia.
      - exists d. repeat split; [exact A|discriminate].
      - exists d. repeat split; [exact A|discriminate]. }
    destruct K as (a & -> & Ca & Na). apply repob_spec in X. rewrite (G a (z :: rest) Ca Na) in X; discriminate.
Qed.
Print Assumptions C78_refused_only_without_repository.

Lemma plain_real x : plain_name x -> real_comp x = true /\ ~ In slash x.
Proof.
  intros (N & D & _ & S0). split; [|exact S0]. destruct x as [|c x]; [congruence|].
  change (negb (beq_bytes (c :: x) M_Security.dot) = true).
  destruct (beq_bytes (c :: x) M_Security.dot) eqn:B; [|reflexivity].
  apply beq_bytes_true in B. exfalso. apply D. exact B.
Qed.

Lemma path_of_normal (abs : bool) cs : cs <> [] -> (forall x, In x cs -> real_comp x = true /\ ~ In slash x) ->
  normalize (path_of ((if abs then [[]] else []) ++ cs)) = path_of ((if abs then [[]] else []) ++ cs).
Proof.
  intros N H. destruct abs.
  - apply (normalize_pth SAbs cs). split; [exact N|]. split; [exact H|discriminate].
  - apply (normalize_pth SRel cs). split; [exact N|]. split; [exact H|discriminate].
Qed.

Lemma inc_file_real name compat off t ty gz : plain_name name -> In ty inc_types ->
  real_comp (inc_file name (timetostring compat off t) ty gz) = true /\
  ~ In slash (inc_file name (timetostring compat off t) ty gz).
Proof.
  intros P T. split; [|apply inc_file_noslash; [apply P|exact T]].
  destruct P as (N & _). destruct name as [|c name]; [congruence|].
  unfold inc_file. cbn [app].
  change (negb (beq_bytes (c :: name ++ bs "." ++ timetostring compat off t ++ bs "." ++ ty ++ (if gz then bs ".gz" else [])) M_Security.dot) = true).
  destruct (beq_bytes _ M_Security.dot) eqn:B; [|reflexivity].
  apply beq_bytes_true in B. injection B as _ B. destruct name; discriminate.
Qed.

(** C78: the path of an increment gives its repository, the file it belongs to
    (in whatever directory) and its time. *)
Theorem C78_increment_names_its_file :
  forall listing (abs : bool) base sub name compat off t ty gz,
    (off mod 60 = 0)%Z -> (-360000 < off < 360000)%Z ->
    (0 <= off \/ off mod 3600 = 0)%Z -> (1900 < year_of (t + off) < 2100)%Z ->
    In ty [bs "snapshot"; bs "dir"; bs "missing"; bs "diff"; bs "data"] ->
    base <> [] -> Forall plain_name base -> Forall plain_name sub -> plain_name name ->
    ~ In (bs "rdiff-backup-data") base -> ~ In (bs "increments") base ->
    let above := (if abs then [[]] else []) ++ base in
    locate listing (path_of (above ++ [bs "rdiff-backup-data"; bs "increments"] ++ sub
                             ++ [inc_file name (timetostring compat off t) ty gz]))
    = FInc (path_of above) (sub ++ [name]) t.
Proof.
  intros ls abs base sub name compat off t ty gz H60 Hb Ho Hy Ht Nb Pb Ps Pn Nd Ni above.
  rewrite Forall_forall in Pb, Ps.
  assert (PI : parse_increment_name (inc_file name (timetostring compat off t) ty gz)
               = Some (gz, timetostring compat off t, t, ty, name)).
  { rewrite inc_file_eq.
    exact (parse_increment_name_spec name (timetostring compat off t) ty gz t
      (timetostring_bytes compat off t) (stringtotime_timetostring compat off t (conj H60 Hb) Ho Hy) Ht). }
  destruct (inc_file_real name compat off t ty gz Pn Ht) as [IR INs].
  set (f := inc_file name (timetostring compat off t) ty gz) in *.
  unfold locate, above. rewrite <- app_assoc. rewrite path_of_normal.
  2: now destruct base.
  2: { intros x I. rewrite !in_app_iff in I. destruct I as [I|[I|[I|[<-|[]]]]].
       - apply plain_real. auto.
       - cbn [In] in I. destruct I as [<-|[<-|[]]]; split; try reflexivity;
           intros X; vm_compute in X; decompose [or] X; try discriminate; easy.
       - apply plain_real. auto.
       - now split. }
  assert (Aq : (if abs then [[]] else []) ++ base ++ [bs "rdiff-backup-data"; bs "increments"] ++ sub ++ [f]
               = (above ++ [data_name; incs_name] ++ sub) ++ [f]).
  { unfold above. now rewrite <- !app_assoc. }
  refine (eq_trans (f_equal (fun l => repo_dirs ls (path_of l)) Aq) _).
  assert (Nd' : ~ In data_name above).
  { unfold above. rewrite in_app_iff. intros [I|I]; [destruct abs; cbn in I; decompose [or] I; try discriminate; easy|contradiction]. }
  assert (Ni' : ~ In incs_name above).
  { unfold above. rewrite in_app_iff. intros [I|I]; [destruct abs; cbn in I; decompose [or] I; try discriminate; easy|contradiction]. }
  change (path_of ((above ++ [data_name; incs_name] ++ sub) ++ [f]))
    with (join_with [slash] ((above ++ [data_name; incs_name] ++ sub) ++ [f])).
  rewrite (repo_dirs_inc ls _ f gz (timetostring compat off t) t ty name).
  - rewrite <- !app_assoc. cbn [app].
    rewrite (index_of_app data_name) by exact Nd'.
    assert (I2 : index_of incs_name (above ++ data_name :: incs_name :: sub ++ [f]) = Some (S (List.length above))).
    { change (above ++ data_name :: incs_name :: sub ++ [f]) with (above ++ [data_name] ++ incs_name :: sub ++ [f]).
      rewrite app_assoc, index_of_app.
      - rewrite app_length. change (List.length [data_name]) with 1%nat. rewrite Nat.add_1_r. reflexivity.
      - rewrite in_app_iff. intros [I|[I|[]]]; [contradiction|discriminate]. }
    unfold bytes in *. rewrite I2. rewrite (proj2 (Nat.eqb_eq (S (List.length above)) (List.length above + 1)%nat)) by lia.
    rewrite firstn_app, firstn_all, Nat.sub_diag, firstn_O, app_nil_r.
    change (above ++ data_name :: incs_name :: sub ++ [f]) with (above ++ [data_name; incs_name] ++ sub ++ [f]).
    rewrite app_assoc. rewrite skipn_app.
    replace (S (List.length above) + 1)%nat with (List.length (above ++ [data_name; incs_name])) by (rewrite app_length; change (List.length [data_name; incs_name]) with 2%nat; lia).
    rewrite skipn_all, Nat.sub_diag. cbn [app skipn]. rewrite removelast_last. reflexivity.
  - now destruct above.
  - intros x I. rewrite !in_app_iff in I. unfold above in I. rewrite in_app_iff in I.
    destruct I as [[[I|I]|[I|I]]|[<-|[]]].
    + destruct abs; cbn in I; decompose [or] I; subst; easy.
    + now apply plain_real; auto.
    + cbn [In] in I. destruct I as [<-|[<-|[]]]; intros X; vm_compute in X; decompose [or] X; try discriminate; easy.
    + now apply plain_real; auto.
    + exact INs.
  - exact PI.
  - apply Pn.
Qed.
Print Assumptions C78_increment_names_its_file.

(** C78: an increment of the root of the backup, beside the directory "increments". *)
Theorem C78_increment_of_the_root :
  forall listing (abs : bool) base compat off t ty gz,
    (off mod 60 = 0)%Z -> (-360000 < off < 360000)%Z ->
    (0 <= off \/ off mod 3600 = 0)%Z -> (1900 < year_of (t + off) < 2100)%Z ->
    In ty [bs "snapshot"; bs "dir"; bs "missing"; bs "diff"; bs "data"] ->
    base <> [] -> Forall plain_name base ->
    ~ In (bs "rdiff-backup-data") base -> ~ In (bs "increments") base ->
    let above := (if abs then [[]] else []) ++ base in
    locate listing (path_of (above ++ [bs "rdiff-backup-data"]
                             ++ [inc_file (bs "increments") (timetostring compat off t) ty gz]))
    = FInc (path_of above) [] t.
Proof.
  intros ls abs base compat off t ty gz H60 Hb Ho Hy Ht Nb Pb Nd Ni above.
  rewrite Forall_forall in Pb.
  assert (Pn : plain_name (bs "increments")).
  { repeat split; try discriminate. intros X; vm_compute in X; decompose [or] X; try discriminate; easy. }
  assert (PI : parse_increment_name (inc_file (bs "increments") (timetostring compat off t) ty gz)
               = Some (gz, timetostring compat off t, t, ty, bs "increments")).
  { rewrite inc_file_eq.
    exact (parse_increment_name_spec (bs "increments") (timetostring compat off t) ty gz t
      (timetostring_bytes compat off t) (stringtotime_timetostring compat off t (conj H60 Hb) Ho Hy) Ht). }
  destruct (inc_file_real (bs "increments") compat off t ty gz Pn Ht) as [IR INs].
  assert (SW : starts_with (bs "increments.") (inc_file (bs "increments") (timetostring compat off t) ty gz) = true).
  { apply starts_with_spec. eexists. unfold inc_file. change (bs "increments.") with (bs "increments" ++ bs ".").
    rewrite <- app_assoc. reflexivity. }
  assert (NI : inc_file (bs "increments") (timetostring compat off t) ty gz <> incs_name).
  { intros X. apply (f_equal (@List.length ascii)) in X. unfold inc_file in X. rewrite !app_length in X.
    change (List.length (bs "increments")) with 10%nat in X. change (List.length incs_name) with 10%nat in X. cbn in X. lia. }
  set (f := inc_file (bs "increments") (timetostring compat off t) ty gz) in *.
  unfold locate, above. rewrite <- app_assoc. rewrite path_of_normal.
  2: now destruct base.
  2: { intros x I. rewrite !in_app_iff in I. destruct I as [I|[I|[<-|[]]]].
       - apply plain_real. auto.
       - cbn [In] in I. destruct I as [<-|[]]; split; try reflexivity;
           intros X; vm_compute in X; decompose [or] X; try discriminate; easy.
       - now split. }
  assert (Aq : (if abs then [[]] else []) ++ base ++ [bs "rdiff-backup-data"] ++ [f]
               = (above ++ [data_name]) ++ [f]).
  { unfold above. now rewrite <- !app_assoc. }
  refine (eq_trans (f_equal (fun l => repo_dirs ls (path_of l)) Aq) _).
  assert (Nd' : ~ In data_name above).
  { unfold above. rewrite in_app_iff. intros [I|I]; [destruct abs; cbn in I; decompose [or] I; try discriminate; easy|contradiction]. }
  assert (Ni' : ~ In incs_name above).
  { unfold above. rewrite in_app_iff. intros [I|I]; [destruct abs; cbn in I; decompose [or] I; try discriminate; easy|contradiction]. }
  change (path_of ((above ++ [data_name]) ++ [f])) with (join_with [slash] ((above ++ [data_name]) ++ [f])).
  rewrite (repo_dirs_inc ls _ f gz (timetostring compat off t) t ty (bs "increments")).
  - rewrite <- !app_assoc. cbn [app].
    rewrite (index_of_app data_name) by exact Nd'.
    rewrite index_of_none.
    + rewrite SW. rewrite app_length. change (List.length [data_name]) with 1%nat. rewrite Nat.eqb_refl.
      rewrite firstn_app, firstn_all, Nat.sub_diag, firstn_O, app_nil_r. reflexivity.
    + rewrite in_app_iff. intros [I|[I|[I|[]]]]; [contradiction|discriminate|congruence].
  - now destruct above.
  - intros x I. rewrite !in_app_iff in I. unfold above in I. rewrite in_app_iff in I.
    destruct I as [[[I|I]|[<-|[]]]|[<-|[]]].
    + destruct abs; cbn in I; decompose [or] I; subst; easy.
    + now apply plain_real; auto.
    + intros X; vm_compute in X; decompose [or] X; try discriminate; easy.
    + exact INs.
  - exact PI.
  - apply Pn.
Qed.
Print Assumptions C78_increment_of_the_root.

Lemma parse_data : parse_increment_name data_name = None. Proof. reflexivity. Qed.
Lemma parse_incs : parse_increment_name incs_name = None. Proof. reflexivity. Qed.

(** C78: a result of type increment is right: the path leads through
    rdiff-backup-data/increments of the base to an increment of the file of the
    index (or, beside it, to one called increments. ...), and the time is the one of its
    name. *)
Theorem C78_increment_sound : forall listing q b idx t,
  locate listing q = FInc b idx t ->
  exists above file c label ty name,
    b = path_of above /\ ~ In (bs "rdiff-backup-data") above /\ ~ In (bs "increments") above /\
    parse_increment_name file = Some (c, label, t, ty, name) /\
    ((exists sub, split_on "/" (normalize q)
                  = above ++ [bs "rdiff-backup-data"; bs "increments"] ++ sub ++ [file] /\ idx = sub ++ [name]) \/
     (split_on "/" (normalize q) = above ++ [bs "rdiff-backup-data"] ++ [file] /\ idx = [] /\
      starts_with (bs "increments.") file = true)).
Proof.
  intros ls q b idx t H. unfold locate in H. set (p := normalize q) in *.
  destruct (exists_last (split_on_nonempty slash p)) as (parts & nm & Sp).
  assert (NS : forall x, In x (parts ++ [nm]) -> ~ In slash x).
  { rewrite <- Sp. apply split_on_no_sep_in. }
  assert (J : p = join_with [slash] (parts ++ [nm])) by (rewrite <- Sp; symmetry; apply join_split).
  change (split_on "/" p) with (split_on slash p). rewrite Sp.
  destruct parts as [|p0 parts0] eqn:Ep.
  { exfalso. unfold repo_dirs in H. rewrite Sp in H.
    cbn [app join_with] in *. rewrite J in H.
    destruct (parse_increment_name nm) as [[[[[? ?] ?] ?] ?]|] eqn:P.
    - destruct (index_of data_name [nm]) as [n|] eqn:I; [|discriminate].
      apply index_of_some in I as (a & br & A & _ & _).
      assert (X : nm = data_name) by (destruct a as [|? [|? ?]]; [injection A; auto|discriminate|discriminate]).
      rewrite X, parse_data in P. discriminate.
    - destruct (has_data ls nm); [discriminate|]. now apply search_not_inc in H. }
  rewrite <- Ep in *. assert (N : parts <> []) by (rewrite Ep; discriminate). clear Ep.
  assert (Nn : ~ In slash nm) by (apply NS; apply in_or_app; right; now left).
  destruct (parse_increment_name nm) as [[[[[c ts] t'] ty] name]|] eqn:P.
  2: { exfalso. unfold repo_dirs in H. rewrite J in H at 1. rewrite join_snoc, parse_in_dir, P in H by assumption.
       cbn [option_map] in H. destruct (has_data ls p); [discriminate|]. now apply search_not_inc in H. }
  assert (NB : ~ In slash name).
  { intros I. apply Nn. 
    pose proof (parse_name_in nm c ts t' ty name P) as K. now apply K. }
  apply (eq_trans (eq_sym (f_equal (repo_dirs ls) J))) in H.
  apply (eq_trans (eq_sym (repo_dirs_inc ls parts nm c ts t' ty name N NS P NB))) in H.
  cbv beta in H. unfold bytes in *.
  destruct (index_of data_name (parts ++ [nm])) as [di|] eqn:Di; [|discriminate].
  apply index_of_some in Di as (a & r & A & Na & La).
  destruct (index_of incs_name (parts ++ [nm])) as [ii|] eqn:Ii.
  - destruct (Nat.eqb_spec ii (di + 1)) as [->|]; [|discriminate].
    injection H as <- <- <-. apply index_of_some in Ii as (a2 & r2 & A2 & Na2 & La2).
    exists a, nm, c, ts, ty, name.
    assert (Fa : firstn di (parts ++ [nm]) = a).
    { rewrite A, <- La, firstn_app, firstn_all, Nat.sub_diag, firstn_O. apply app_nil_r. }
    rewrite Fa.
    assert (A3 : a2 = a ++ [data_name] /\ r = incs_name :: r2).
    { rewrite A in A2. change (a ++ data_name :: r) with (a ++ [data_name] ++ r) in A2. rewrite app_assoc in A2.
      apply app_inj in A2; [|rewrite app_length; cbn; lia]. destruct A2 as [<- ->]. now split. }
    destruct A3 as [-> ->].
    assert (Hr : exists sub, r2 = sub ++ [nm]).
    { destruct r2 as [|z r2] using rev_ind.
      - exfalso. change (a ++ [data_name; incs_name]) with (a ++ [data_name] ++ [incs_name]) in A.
        rewrite app_assoc in A. apply app_inj_tail in A as [_ X]. rewrite X, parse_incs in P. discriminate.
      - clear IHr2. exists r2. change (a ++ data_name :: incs_name :: r2 ++ [z]) with (a ++ ([data_name; incs_name] ++ r2) ++ [z]) in A.
        rewrite app_assoc in A. apply app_inj_tail in A as [_ ->]. reflexivity. }
    destruct Hr as [sub ->].
    split; [reflexivity|]. split; [exact Na|]. split.
    { intros I. apply Na2. apply in_or_app. now left. }
    split; [exact P|]. left. exists sub. split; [rewrite A; reflexivity|]. f_equal.
    rewrite A. change (a ++ data_name :: incs_name :: sub ++ [nm]) with (a ++ [data_name; incs_name] ++ sub ++ [nm]).
    rewrite app_assoc, skipn_app.
    replace (di + 1 + 1)%nat with (List.length (a ++ [data_name; incs_name])) by (rewrite app_length; cbn; lia).
    rewrite skipn_all, Nat.sub_diag. cbn [app skipn]. apply removelast_last.
  - destruct (starts_with (bs "increments.") nm) eqn:SW; [|discriminate].
    destruct (Nat.eqb_spec (List.length parts) (di + 1)) as [L|]; [|discriminate].
    injection H as <- <- <-. exists a, nm, c, ts, ty, name.
    assert (Fa : firstn di (parts ++ [nm]) = a).
    { rewrite A, <- La, firstn_app, firstn_all, Nat.sub_diag, firstn_O. apply app_nil_r. }
    rewrite Fa. split; [reflexivity|]. split; [exact Na|]. split.
    { intros I. assert (X : index_of incs_name (parts ++ [nm]) <> None); [|congruence].
      rewrite A. apply in_split in I as (u & v & ->). rewrite <- app_assoc. cbn [app].
      clear. induction u as [|y u IH]; cbn [app index_of]; [discriminate|].
      destruct (beq_bytes y incs_name); [discriminate|]. destruct (index_of _ _); [discriminate|congruence]. }
    split; [exact P|]. right. split; [|split; [reflexivity|exact SW]].
    change (a ++ data_name :: r) with (a ++ [data_name] ++ r) in A. rewrite app_assoc in A.
    apply app_inj in A; [|refine (eq_trans L _); rewrite <- La, app_length; reflexivity]. destruct A as [-> _]. rewrite <- app_assoc. reflexivity.
Qed.
Print Assumptions C78_increment_sound.

(** Exceptions: paths of which the answer is wrong. *)
Definition tree_of (l : list (list bytes)) (d : list bytes) : option (list bytes) :=
  if existsb (fun r => beq_bytes (path_of r) (path_of d)) l then Some [bs "rdiff-backup-data"; bs "f"] else Some [bs "f"].

(** An increment in a repository below a directory called "increments" (or
    "rdiff-backup-data") is refused: the first one of the path is taken for the one
    of the repository. *)
Theorem C78_below_increments_refuted : forall listing,
  locate listing (bs "/increments/repo/rdiff-backup-data/increments/d/f.2024-01-02T03:04:05Z.diff") = FNone /\
  locate listing (bs "/rdiff-backup-data/repo/rdiff-backup-data/increments/d/f.2024-01-02T03:04:05Z.diff") = FNone /\
  locate listing (bs "/repo/rdiff-backup-data/increments/d/f.2024-01-02T03:04:05Z.diff")
  = FInc (bs "/repo") [bs "d"; bs "f"] 1704164645.
Proof. intros ls. repeat split; vm_compute; reflexivity. Qed.
Print Assumptions C78_below_increments_refuted.

(** Of a repository at the root of the file system, an increment gives the empty
    path as base, which is the current directory. *)
Theorem C78_root_refuted : forall listing cwd,
  locate listing (bs "/rdiff-backup-data/increments/f.2024-01-02T03:04:05Z.diff") = FInc [] [bs "f"] 1704164645 /\
  place cwd [] = cwd /\ place cwd (bs "/") = [].
Proof. intros ls cwd. repeat split; vm_compute; reflexivity. Qed.
Print Assumptions C78_root_refuted.

(** With ".." at its end, a path leading out of a repository is taken as being within:
    repo/.. has the index "..". *)
Theorem C78_dotdot_refuted : exists tree listing,
  sees [] tree listing /\ ~ repository_at tree (place [] (bs "/repo/..")) /\ ~ repository_at tree [] /\
  locate listing (bs "/repo/..") = FSub (bs "/repo") [bs ".."] /\ place [] (bs "/repo/..") = [].
Proof.
  exists (tree_of [[bs "repo"]]), (fun p => tree_of [[bs "repo"]] (place [] p)).
  assert (N : ~ repository_at (tree_of [[bs "repo"]]) []).
  { intros (l & E & I). vm_compute in E. injection E as <-. vm_compute in I. destruct I as [I|[]]. discriminate. }
  split; [intros p; reflexivity|]. split; [exact N|]. split; [exact N|]. split; vm_compute; reflexivity.
Qed.
Print Assumptions C78_dotdot_refuted.

(** A repository (or a file of one) whose name looks like the one of an increment is
    never found. *)
Theorem C78_looks_like_increment_refuted : forall tree listing cwd,
  sees cwd tree listing ->
  locate listing (bs "/srv/old.2024-01-02T03:04:05Z.dir") = FNone /\
  locate listing (bs "/srv/repo/old.2024-01-02T03:04:05Z.dir") = FNone.
Proof. intros tree ls cwd E. split; vm_compute; reflexivity. Qed.
Print Assumptions C78_looks_like_increment_refuted.

(** What lies in rdiff-backup-data and does not look like an increment is taken as a
    file of the backup. *)
Theorem C78_data_directory_refuted : exists tree listing,
  sees [] tree listing /\
  locate listing (bs "/repo/rdiff-backup-data/backup.log")
  = FSub (bs "/repo") [bs "rdiff-backup-data"; bs "backup.log"].
Proof.
  exists (tree_of [[bs "repo"]]), (fun p => tree_of [[bs "repo"]] (place [] p)).
  split; [intros p; reflexivity|vm_compute; reflexivity].
Qed.
Print Assumptions C78_data_directory_refuted.

(** Within the repository as current directory, a relative path is not recognised
    (as the comment of the function says). *)
Theorem C78_within_current_directory_refuted : exists tree listing,
  sees [bs "repo"] tree listing /\ repository_at tree [bs "repo"] /\ locate listing (bs "d/f") = FNone /\
  locate listing (bs ".") = FBase (bs ".") /\ locate listing (bs "/repo/d/f") = FSub (bs "/repo") [bs "d"; bs "f"].
Proof.
  exists (tree_of [[bs "repo"]]), (fun p => tree_of [[bs "repo"]] (place [bs "repo"] p)).
  split; [intros p; reflexivity|]. split.
  - eexists. split; [vm_compute; reflexivity|now left].
  - repeat split; vm_compute; reflexivity.
Qed.
Print Assumptions C78_within_current_directory_refuted.

(** Non-vacuity. *)
Example C78_example_nested :
  let tree := tree_of [[bs "a"; bs "repo"]; [bs "a"; bs "repo"; bs "in"; bs "ner"]] in
  let listing := fun p => tree (place [bs "a"] p) in
  sees [bs "a"] tree listing /\
  locate listing (bs "repo//in/./ner/x/y/") = FSub (bs "repo/in/ner") [bs "x"; bs "y"] /\
  locate listing (bs "repo/in/x") = FSub (bs "repo") [bs "in"; bs "x"] /\
  locate listing (bs "/a/repo/in/ner") = FBase (bs "/a/repo/in/ner") /\
  locate listing (bs "/a/b") = FNone /\
  locate listing (bs "//a/repo/in") = FSub (bs "//a/repo") [bs "in"] /\
  locate listing (bs "repo/rdiff-backup-data/increments/in/rdiff-backup-data/increments/f.x.2024-01-02T03:04:05Z.snapshot.gz")
  = FInc (bs "repo") [bs "in"; bs "rdiff-backup-data"; bs "increments"; bs "f.x"] 1704164645 /\
  locate listing (bs "repo/rdiff-backup-data/increments.2024-01-02T03:04:05Z.dir") = FInc (bs "repo") [] 1704164645.
Proof. split; [intros p; reflexivity|]. repeat split; vm_compute; reflexivity. Qed.
Example C78_example_increment :
  year_of 1704164645%Z = 2024%Z /\ plain_name (bs "a.b") /\ ~ In (bs "increments") [bs "srv"; bs "repo"].
Proof.
  split; [vm_compute; reflexivity|]. split; [repeat split; try discriminate|].
  - intros I. vm_compute in I. decompose [or] I; try discriminate; easy.
  - intros [I|[I|[]]]; discriminate.
Qed.
