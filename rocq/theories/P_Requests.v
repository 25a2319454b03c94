(** * C69 A restricted server does everything its mode is meant for *)
From Coq Require Import List Bool Ascii Lia.
From Verif Require Import Base L_Base M_Security S_Security P_Security M_Requests S_Requests.
Import List ListNotations.

(** ** Requests without path *)
Definition plain_arg (a : arg) : bool := match a with ARPath true _ _ => false | _ => true end.
Definition tame (lv : level) (q : request) : bool :=
  forallb plain_arg (r_args q)
  && match file_request (r_fun q) file_requests with None => true | _ => false end
  && (mem_bytes (r_fun q) (allowed_requests CServer lv)
      || mem_bytes (r_fun q) globals_requests
         && match r_args q with AStr g :: _ => negb (mem_bytes g disallowed_server_globals) | _ => false end)
  && negb (beq_bytes (r_fun q) f_set && match r_args q with AStr g :: _ => beq_bytes g (bs "local_connection") | _ => true end).

Definition Inv (lv : level) (s : sec) : Prop :=
  s_level s = lv /\ s_allowed s = allowed_requests CServer lv /\ s_conn_ok s = true.

Section Serve.
Variable fb : bytes -> option bytes.

Lemma tame_accepted lv s q : Inv lv s -> tame lv q = true -> vet_request s (r_fun q) (r_args q) = VAccept.
Proof.
  intros (A & B & C) T. unfold tame in T. apply andb_true_iff in T as [T _]. apply andb_true_iff in T as [T T3].
  apply andb_true_iff in T as [T1 T2].
  destruct (file_request (r_fun q) file_requests) eqn:F; [discriminate|].
  assert (P : vet_paths s (r_fun q) (r_args q) = VAccept).
  { unfold vet_paths. destruct (s_restrict s) as [r|]; auto. rewrite F.
    replace (forallb (vet_arg s r) (r_args q)) with true; auto. symmetry. apply forallb_forall. intros a Ha.
    rewrite forallb_forall in T1. specialize (T1 a Ha). destruct a as [[] ? ?| | | |]; cbn in *; auto; discriminate. }
  unfold vet_request. rewrite P, B. destruct (s_level s); auto;
  (destruct (mem_bytes (r_fun q) (allowed_requests CServer lv)); auto; cbn [orb] in T3;
   apply andb_true_iff in T3 as [T3 T4]; rewrite T3; destruct (r_args q) as [|[]]; try discriminate; cbn in *;
   apply negb_true_iff in T4; rewrite T4; reflexivity).
Qed.

Lemma tame_effect lv ok s q : Inv lv s -> tame lv q = true ->
  Inv lv (run_effect fb ok s (r_fun q) (r_args q)) /\
  (r_fun q <> f_setup_repo -> s_restrict (run_effect fb ok s (r_fun q) (r_args q)) = s_restrict s).
Proof.
  intros (A & B & C) T. unfold tame in T. apply andb_true_iff in T as [T T4]. apply andb_true_iff in T as [T T3].
  apply andb_true_iff in T as [T1 T2]. apply negb_true_iff in T4.
  unfold run_effect. destruct (beq_bytes (r_fun q) f_init_repo) eqn:E1.
  { apply beq_bytes_true in E1. rewrite E1 in T2. discriminate. }
  destruct (beq_bytes (r_fun q) f_setup_repo) eqn:E2.
  { apply beq_bytes_true in E2. split; [|congruence]. destruct (s_base s) as [b|]; [|repeat split; auto].
    destruct (ok && s_conn_ok s); repeat split; auto. }
  destruct (beq_bytes (r_fun q) f_set) eqn:E3; [|repeat split; auto].
  cbn [andb] in T4. destruct (r_args q) as [|[]]; try discriminate. rewrite T4. repeat split; auto.
Qed.

Lemma serve_app s l1 l2 : serve fb s (l1 ++ l2) =
  (fst (serve fb s l1) ++ fst (serve fb (snd (serve fb s l1)) l2), snd (serve fb (snd (serve fb s l1)) l2)).
Proof.
  revert s. induction l1 as [|q l1 IH]; intro s; cbn [app serve].
  - cbn [fst snd app]. destruct (serve fb s l2); reflexivity.
  - destruct (answer fb s q) as [d s1]. rewrite (IH s1). destruct (serve fb s1 l1) as [ds s2]. reflexivity.
Qed.

Lemma tame_served lv l : forall s, Inv lv s -> forallb (tame lv) l = true ->
  fst (serve fb s l) = map Executed l /\ Inv lv (snd (serve fb s l)) /\
  (forallb (fun q => negb (beq_bytes (r_fun q) f_setup_repo)) l = true -> s_restrict (snd (serve fb s l)) = s_restrict s).
Proof.
  induction l as [|q l IH]; intros s I T; [auto|]. cbn [forallb] in T. apply andb_true_iff in T as [T1 T2].
  cbn [serve]. unfold answer. rewrite (tame_accepted lv s q I T1).
  destruct (tame_effect lv (r_ok q) s q I T1) as [I1 R1].
  destruct (IH _ I1 T2) as (A & B & C). destruct (serve fb (run_effect fb (r_ok q) s (r_fun q) (r_args q)) l) as [ds s2].
  cbn [fst snd] in *. subst ds. split; [reflexivity|]. split; auto. cbn [forallb]. intro H.
  apply andb_true_iff in H as [H1 H2]. rewrite C by auto. apply R1. intro E. rewrite E in H1. vm_compute in H1. discriminate.
Qed.
End Serve.

(** ** The path of a location inside of the directory of the restriction is accepted *)
Lemma comps_app_slash p q : comps (p ++ slash :: q) = comps p ++ comps q.
Proof.
  unfold comps. rewrite <- filter_app. f_equal. induction p as [|c p IH]; [reflexivity|]. cbn [app split_on].
  rewrite IH. destruct (Ascii.eqb c slash); [reflexivity|].
  destruct (split_on slash p) as [|x l] eqn:E; [|reflexivity]. destruct p; cbn in E; [discriminate|].
  destruct (Ascii.eqb _ _); [discriminate|]. destruct (split_on slash p); discriminate.
Qed.

Lemma comps_join1 p x : file_name x -> p <> [] -> comps (os_join p [x]) = comps p ++ [x].
Proof.
  intros (N & Sx & D1 & D2) Np.
  assert (C : comps x = [x]).
  { unfold comps. rewrite split_on_nosep by auto. cbn [filter]. unfold real_comp. destruct x; [congruence|].
    replace (beq_bytes (a :: x) dot) with false; [reflexivity|]. symmetry. unfold beq_bytes.
    destruct (list_eq_dec ascii_dec (a :: x) dot); [contradiction|reflexivity]. }
  cbn [os_join].
  replace (match x with c :: _ => Ascii.eqb c slash | [] => false end) with false.
  2:{ destruct x as [|c x']; auto. symmetry. apply Ascii.eqb_neq. intros ->. apply Sx. now left. }
  destruct p as [|c0 p0]; [congruence|]. set (p := c0 :: p0) in *.
  destruct (rev p) as [|c q] eqn:E; [apply (f_equal (@length ascii)) in E; rewrite rev_length in E; discriminate|].
  destruct (Ascii.eqb c slash) eqn:Es.
  - apply Ascii.eqb_eq in Es. subst c. assert (P : p = rev q ++ [slash]) by (rewrite <- (rev_involutive p), E; reflexivity).
    rewrite P, <- app_assoc. cbn [app]. rewrite !comps_app_slash, C. cbn. rewrite app_nil_r. reflexivity.
  - rewrite comps_app_slash, C. reflexivity.
Qed.

Lemma join_start p x : file_name x -> p <> [] -> exists q, os_join p [x] = p ++ q /\ os_join p [x] <> [].
Proof.
  intros (N & Sx & _) Np. cbn [os_join].
  replace (match x with c :: _ => Ascii.eqb c slash | [] => false end) with false.
  2:{ destruct x as [|c x']; auto. symmetry. apply Ascii.eqb_neq. intros ->. apply Sx. now left. }
  destruct p as [|c0 p0]; [congruence|].
  destruct (match rev (c0 :: p0) with c :: _ => Ascii.eqb c slash | [] => false end); eexists; (split; [reflexivity|discriminate]).
Qed.

Lemma join_many idx : forall p, (forall x, In x idx -> file_name x) -> p <> [] ->
  comps (os_join p idx) = comps p ++ idx /\ exists q, os_join p idx = p ++ q.
Proof.
  induction idx as [|x idx IH]; intros p H Np.
  - cbn. rewrite app_nil_r. split; auto. exists []. now rewrite app_nil_r.
  - assert (Fx := H x (or_introl eq_refl)).
    change (os_join p (x :: idx)) with (os_join (os_join p [x]) idx).
    destruct (join_start p x Fx Np) as (q & E & N).
    destruct (IH (os_join p [x])) as (A & q2 & B); auto. { intros y Hy. apply H. now right. }
    split.
    + rewrite A, comps_join1 by auto. rewrite <- app_assoc. reflexivity.
    + exists (q ++ q2). rewrite B, E, app_assoc. reflexivity.
Qed.

Lemma split_ne p : split_on slash p <> [].
Proof. induction p as [|c p IH]; cbn; [discriminate|]. destruct (Ascii.eqb c slash); [discriminate|]. destruct (split_on slash p); discriminate. Qed.

Lemma split_normalize p : p <> [] -> comps p <> [] ->
  split_on slash (normalize p) =
    (if starts_slash p then if windows_share p then [[]; []] else [[]] else []) ++ comps p.
Proof.
  intros Np Nc. unfold normalize. fold (comps p).
  assert (S0 := split_join_comps p Nc).
  destruct (starts_slash p).
  - destruct (windows_share p); cbn [app]; cbn [split_on]; rewrite ?Ascii.eqb_refl, S0; reflexivity.
  - destruct (os_join [] (comps p)) eqn:E; [|exact S0]. cbn in S0. exfalso.
    assert (In [] (comps p)) by (rewrite <- S0; now left). apply comps_ok in H. tauto.
Qed.

Lemma list_prefix_app a b : list_prefix a (a ++ b) = true.
Proof.
  induction a as [|x a IH]; cbn; auto. rewrite IH. unfold beq_bytes. destruct (list_eq_dec ascii_dec x x); [auto|congruence].
Qed.

Lemma comps_empty_normalize p : p <> [] -> starts_slash p = true -> comps p = [] -> windows_share p = false -> normalize p = bs "/".
Proof. intros N S C W. unfold normalize. fold (comps p). rewrite S, W, C. reflexivity. Qed.

Lemma share_comps p : windows_share p = true -> starts_slash p = true -> comps p <> [].
Proof.
  intros W S E. destruct p as [|a [|b [|d r]]]; try discriminate. unfold windows_share in W. apply andb_true_iff in W as [W1 W2].
  assert (Na : is_alnum slash = false) by reflexivity.
  cbn [starts_slash] in S. apply Ascii.eqb_eq in S. apply Ascii.eqb_eq in W1. subst a b.
  assert (D : Ascii.eqb d slash = false). { apply Ascii.eqb_neq. intros ->. congruence. }
  unfold comps in E. cbn [split_on] in E. rewrite Ascii.eqb_refl in E. rewrite D in E.
  assert (X : forall l, filter real_comp (match l with [] => [[d]] | f :: fs => (d :: f) :: fs end) <> []).
  { intros l. destruct l as [|f fs]; cbn [filter]; unfold real_comp at 1.
    - replace (beq_bytes [d] dot) with false; [discriminate|]. symmetry. unfold beq_bytes.
      destruct (list_eq_dec ascii_dec [d] dot) as [Y|]; auto. inversion Y; subst. discriminate.
    - replace (beq_bytes (d :: f) dot) with false; [discriminate|]. symmetry. unfold beq_bytes.
      destruct (list_eq_dec ascii_dec (d :: f) dot) as [Y|]; auto. inversion Y; subst. discriminate. }
  cbn [filter real_comp] in E. exact (X _ E).
Qed.

Lemma inside_accepted r idx : good_dir r -> r <> [] -> (forall x, In x idx -> file_name x) ->
  vet_path (normalize r) (rp_path r idx) = true.
Proof.
  intros (Nd & Ab) Nr H. unfold rp_path. destruct (join_many idx r H Nr) as (C & q & E). set (p := os_join r idx) in *.
  assert (Np : p <> []) by (rewrite E; destruct r; [congruence|discriminate]).
  assert (Ss : starts_slash p = starts_slash r) by (rewrite E; destruct r; [congruence|reflexivity]).
  assert (Dr : ~ In dotdot (comps r)). { intro X. apply filter_In in X as [X _]. apply Nd. exact X. }
  assert (Dp : ~ In dotdot (comps p)).
  { rewrite C. intro X. apply in_app_or in X as [X|X]; auto. destruct (H _ X) as (_ & _ & _ & X4). apply X4. reflexivity. }
  unfold vet_path.
  assert (Dn : mem_bytes dotdot (split_on slash (normalize p)) = false).
  { apply not_true_is_false. rewrite mem_bytes_In. intro X. apply Dp. rewrite <- normalize_comps. apply filter_In. split; auto. }
  rewrite Dn. destruct (beq_bytes (normalize r) (bs "/")) eqn:Er; auto.
  assert (Cr : comps r <> []).
  { intro Z. destruct Ab as [Ab|(x & X1 & X2 & X3)].
    - destruct (windows_share r) eqn:W; [exact (share_comps r W Ab Z)|].
      rewrite (comps_empty_normalize r Nr Ab Z W) in Er. vm_compute in Er. discriminate.
    - assert (In x (comps r)); [|rewrite Z in *; contradiction]. apply filter_In. split; auto. unfold real_comp.
      destruct x; [congruence|]. apply negb_true_iff. unfold beq_bytes. destruct (list_eq_dec ascii_dec (a :: x) dot); [contradiction|reflexivity]. }
  rewrite split_normalize by auto. rewrite split_normalize; auto.
  2:{ rewrite C. destruct (comps r); [congruence|discriminate]. }
  rewrite Ss, C.
  assert (W : starts_slash r = true -> windows_share p = windows_share r).
  { intros Sr. rewrite E. destruct r as [|a [|b [|d r']]]; [congruence| | |reflexivity].
    - cbn in Sr. apply Ascii.eqb_eq in Sr. subst a. exfalso. apply Cr. reflexivity.
    - cbn in Sr. apply Ascii.eqb_eq in Sr. subst a.
      destruct (Ascii.eqb b slash) eqn:B.
      + apply Ascii.eqb_eq in B. subst b. exfalso. apply Cr. reflexivity.
      + unfold windows_share. destruct q; cbn [app]; rewrite ?B; reflexivity. }
  destruct (starts_slash r); [rewrite (W eq_refl)|]; rewrite app_assoc; apply list_prefix_app.
Qed.

(** ** The scripts *)
Lemma forallb_repeat {A} (f : A -> bool) x n : f x = true -> forallb f (repeat x n) = true.
Proof. intros H. induction n; cbn; auto. rewrite H. auto. Qed.

Definition setting_name (g : bytes) : Prop := g <> bs "server".

Lemma gset_tame lv g : setting_name g -> tame lv (gset g) = true.
Proof.
  intros N. unfold tame, gset, rq. cbn [r_args r_fun forallb plain_arg andb].
  replace (file_request (bs "generics.set_local") file_requests) with (@None nat) by reflexivity.
  replace (mem_bytes (bs "generics.set_local") globals_requests) with true by reflexivity.
  replace (beq_bytes (bs "generics.set_local") f_set) with false by reflexivity. cbn [andb negb].
  replace (mem_bytes g disallowed_server_globals) with false; [rewrite Bool.orb_true_r; reflexivity|].
  symmetry. apply not_true_is_false. rewrite mem_bytes_In. intros [X|[]]. apply N. auto.
Qed.

Lemma connecting_tame lv settings others base idx : lv <> LOverride -> enough NAny lv = true -> Forall setting_name settings ->
  forallb (tame lv) (connecting settings others base idx) = true
  /\ forallb (fun q => negb (beq_bytes (r_fun q) f_setup_repo)) (connecting settings others base idx) = true.
Proof.
  intros Lo E F. unfold connecting. rewrite !forallb_app. split.
  - rewrite forallb_repeat by (destruct lv; try discriminate; try congruence; vm_compute; reflexivity).
    replace (forallb (tame lv) (map gset settings)) with true.
    2:{ symmetry. induction F; cbn [map forallb]; auto. rewrite gset_tame, IHF; auto. }
    destruct lv; try discriminate; try congruence; vm_compute; reflexivity.
  - rewrite forallb_repeat by reflexivity.
    replace (forallb _ (map gset settings)) with true; [reflexivity|].
    symmetry. clear. induction settings; cbn [map forallb]; auto.
Qed.

Definition initial (base : bytes) (idx : list bytes) (a : act) (r : role) : list request :=
  match r, a with
  | RRepo, QTest => []
  | RRepo, _ => firstn 1 (repo_part base idx a 0)
  | RDir, QTest => []
  | RDir, _ => firstn 1 (dir_part base idx a 0)
  end.

Lemma reading_tame lv n : lv <> LOverride -> enough NAny lv = true -> forallb (tame lv) (reading_from n) = true.
Proof.
  intros Lo E. unfold reading_from. rewrite forallb_app, forallb_repeat; destruct lv; try discriminate; try congruence; vm_compute; reflexivity.
Qed.

Definition rest (base : bytes) (idx : list bytes) (a : act) (r : role) (n : nat) : list request :=
  match r, a with
  | _, QTest => repo_part base idx a n
  | RRepo, _ => skipn 1 (repo_part base idx a n)
  | RDir, _ => skipn 1 (dir_part base idx a n)
  end.

Lemma script_eq settings others base idx a r n :
  script base idx settings others a r n
  = connecting settings others base idx ++ initial base idx a r ++ rest base idx a r n ++ ending a r.
Proof. unfold script. f_equal. rewrite app_assoc. f_equal. destruct r, a; reflexivity. Qed.

Definition has_location (a : act) (r : role) : bool :=
  match r, a with
  | RRepo, _ => true
  | RDir, (QBackup _ _ _ | QRestore _ | QCompare _ _ _ | QTest) => true
  | RDir, _ => false
  end.

(** what the read-only mode does not allow: telling an old repository its settings *)
Definition settled (a : act) : bool :=
  match a with QCompare _ uctq use => negb uctq && negb use | QStatistics => false | _ => true end.

Lemma rest_tame lv base idx a r n : enough (needs a r) lv = true -> settled a = true \/ (r = RDir /\ a <> QStatistics) -> lv <> LOverride ->
  forallb (tame lv) (rest base idx a r n ++ ending a r) = true.
Proof.
  intros E St Lo. rewrite forallb_app.
  assert (R : forallb (tame lv) (reading_from n) = true).
  { apply reading_tame; auto. destruct lv; auto; destruct a as [? ? []| | | | | | | | | |], r; discriminate. }
  assert (T : forall lv', lv' <> LMinimal -> lv' <> LOverride -> forall b i, forallb (tame lv') (repo_part b i QTest n) = true).
  { intros lv' H1 H2 b i. destruct lv'; try congruence; vm_compute; reflexivity. }
  unfold rest, ending. destruct r.
  - destruct a as [uc us fl|at_|m uc us|sz|si| | | |fl fo ca| |]; cbn [settled] in St; destruct St as [St|[? ?]]; try discriminate.
    all: cbn [needs] in E; try (destruct fl); try (destruct at_); try (destruct sz); try (destruct si); try (destruct fo); try (destruct ca);
      try (destruct uc); try (destruct us); try discriminate; destruct lv; try discriminate; try congruence;
      cbn [repo_part repo_init app skipn]; try (rewrite T by congruence); repeat (progress (rewrite ?forallb_app; cbn [forallb app])); rewrite ?R; vm_compute; reflexivity.
  - destruct a as [uc us fl|at_|m uc us|sz|si| | | |fl fo ca| |]; cbn [needs] in E;
      try (destruct fl); try (destruct m); destruct lv; try discriminate; try congruence; try (destruct fo; discriminate);
      cbn [dir_part dir_read_init dir_write_init app skipn]; try (rewrite T by congruence); repeat (progress (rewrite ?forallb_app; cbn [forallb app])); rewrite ?R; vm_compute; reflexivity.
Qed.

(** The first request, naming the path of the location, is accepted in the state reached
    by connecting. *)
Lemma initial_served fb lv s base idx a r :
  Inv lv s -> lv <> LOverride -> enough (needs a r) lv = true ->
  match s_restrict s with Some d => vet_path d (rp_path base idx) = true | None => True end ->
  fst (serve fb s (initial base idx a r)) = map Executed (initial base idx a r) /\ Inv lv (snd (serve fb s (initial base idx a r))).
Proof.
  intros I Lo E P. assert (I' := I). destruct I' as (A & B & C).
  assert (G : forall f args, In f [f_init_repo; rdir_f (bs "init"); wdir_f (bs "init")] ->
     mem_bytes f (allowed_requests CServer lv) = true -> forallb plain_arg args = true ->
     fst (serve fb s [rq f (ARPath true base idx :: args)]) = [Executed (rq f (ARPath true base idx :: args))]
     /\ Inv lv (snd (serve fb s [rq f (ARPath true base idx :: args)]))).
  { intros f args Hf Hm Ha. cbn [serve]. unfold answer. cbn [r_fun r_args rq].
    assert (V : vet_request s f (ARPath true base idx :: args) = VAccept).
    { unfold vet_request. rewrite B, Hm.
      assert (Q : vet_paths s f (ARPath true base idx :: args) = VAccept).
      { unfold vet_paths. destruct (s_restrict s) as [d|]; auto.
        replace (forallb (vet_arg s d) (ARPath true base idx :: args)) with true.
        - assert (Fr : file_request f file_requests = Some 0) by (repeat (destruct Hf as [<-|Hf]; [reflexivity|]); destruct Hf).
          rewrite Fr. unfold vet_filename. cbn [nth_error filename_of]. rewrite C, P. reflexivity.
        - symmetry. cbn [forallb]. rewrite Bool.andb_true_iff. split; [cbn; rewrite C, P; reflexivity|].
          apply forallb_forall. intros x Hx. rewrite forallb_forall in Ha. specialize (Ha x Hx).
          destruct x as [[] ? ?| | | |]; cbn in *; auto; discriminate. }
      rewrite Q. destruct (s_level s); reflexivity. }
    rewrite V. cbn [fst snd]. split; [reflexivity|]. unfold run_effect.
    destruct (beq_bytes f f_init_repo); [repeat split; auto|].
    replace (beq_bytes f f_setup_repo) with false by (repeat (destruct Hf as [<-|Hf]; [reflexivity|]); destruct Hf).
    replace (beq_bytes f f_set) with false by (repeat (destruct Hf as [<-|Hf]; [reflexivity|]); destruct Hf). auto. }
  destruct r, a as [uc us fl|at_|m uc us|sz|si| | | |fl fo ca| |];
    try (cbn [initial repo_part repo_init dir_part dir_read_init dir_write_init app firstn]);
    try (split; [reflexivity|assumption]);
    (apply G; [cbn; tauto| |reflexivity]);
    cbn [needs] in E; try (destruct fl); destruct lv; try discriminate; try congruence; vm_compute; reflexivity.
Qed.

(** ** The theorem: a server restricted to a mode which is enough for the action, and to a
    directory in which the location lies, executes all requests of the action. *)
Theorem C69_actions_accepted : forall fb tmp lv rdir idx settings others a r n,
  lv <> LOverride -> enough (needs a r) lv = true -> settled a = true ->
  good_dir rdir -> rdir <> [] -> (forall x, In x idx -> file_name x) -> Forall setting_name settings ->
  exists s, initialize tmp CServer lv (Some rdir) [] = Some s /\
    fst (serve fb s (script rdir idx settings others a r n)) = map Executed (script rdir idx settings others a r n).
Proof.
  intros fb tmp lv rdir idx settings others a r n Lo E St G Nr Hi F.
  unfold initialize. cbn [set_security_level]. eexists. split; [reflexivity|].
  match goal with |- context [serve fb ?x _] => set (s0 := x) end.
  assert (I0 : Inv lv s0 /\ s_restrict s0 = Some (normalize rdir)).
  { unfold s0. destruct rdir as [|c q]; [congruence|]. cbn. split; [repeat split; auto|].
    unfold opt_path. destruct (normalize (c :: q)) eqn:Z; auto. exfalso. exact (normalize_ne _ Z). }
  destruct I0 as [I0 R0]. clearbody s0. rewrite script_eq.
  assert (En : enough NAny lv = true) by (destruct lv; auto; destruct a as [? ? []| | | | | | | | | |], r; discriminate).
  destruct (connecting_tame lv settings others rdir idx Lo En F) as [T1 T2].
  destruct (tame_served fb lv _ s0 I0 T1) as (A1 & I1 & R1). specialize (R1 T2).
  rewrite serve_app. cbn [fst snd]. rewrite A1, map_app. f_equal.
  destruct (initial_served fb lv _ rdir idx a r I1 Lo E) as (A2 & I2).
  { rewrite R1, R0. apply inside_accepted; auto. }
  rewrite serve_app. cbn [fst snd]. rewrite A2, map_app. f_equal.
  apply (tame_served fb lv); auto. apply rest_tame; auto.
Qed.

(** The same without a directory of restriction. *)
Theorem C69_unrestricted_accepted : forall fb tmp lv base idx settings others a r n,
  lv <> LOverride -> enough (needs a r) lv = true -> settled a = true -> Forall setting_name settings ->
  exists s, initialize tmp CServer lv None [] = Some s /\
    fst (serve fb s (script base idx settings others a r n)) = map Executed (script base idx settings others a r n).
Proof.
  intros fb tmp lv base idx settings others a r n Lo E St F.
  unfold initialize. cbn [set_security_level]. eexists. split; [reflexivity|].
  match goal with |- context [serve fb ?x _] => set (s0 := x) end.
  assert (I0 : Inv lv s0 /\ s_restrict s0 = None) by (unfold s0; cbn; repeat split; auto).
  destruct I0 as [I0 R0]. clearbody s0. rewrite script_eq.
  assert (En : enough NAny lv = true) by (destruct lv; auto; destruct a as [? ? []| | | | | | | | | |], r; discriminate).
  destruct (connecting_tame lv settings others base idx Lo En F) as [T1 T2].
  destruct (tame_served fb lv _ s0 I0 T1) as (A1 & I1 & R1). specialize (R1 T2).
  rewrite serve_app. cbn [fst snd]. rewrite A1, map_app. f_equal.
  destruct (initial_served fb lv _ base idx a r I1 Lo E) as (A2 & I2).
  { rewrite R1, R0. exact I. }
  rewrite serve_app. cbn [fst snd]. rewrite A2, map_app. f_equal.
  apply (tame_served fb lv); auto. apply rest_tame; auto.
Qed.

(** ** Where it fails *)
Lemma executed_allowed fb lv s l q : Inv lv s -> lv <> LOverride -> In (Executed q) (fst (serve fb s l)) ->
  mem_bytes (r_fun q) (allowed_requests CServer lv) = true \/ mem_bytes (r_fun q) globals_requests = true.
Proof.
  revert s. induction l as [|x l IH]; intros s I Lo H; [destruct H|]. cbn [serve] in H.
  destruct (answer fb s x) as [d s1] eqn:Ax. destruct (serve fb s1 l) as [ds s2] eqn:Sx. cbn [fst] in H.
  assert (L1 : s_level s1 = s_level s /\ s_allowed s1 = s_allowed s).
  { assert (Sv : serve fb s [x] = ([d], s1)) by (cbn [serve]; rewrite Ax; reflexivity). exact (serve_level fb [x] s [d] s1 Sv). }
  destruct H as [H|H].
  - subst d. unfold answer in Ax. destruct (vet_request s (r_fun x) (r_args x)) eqn:V; try discriminate.
    assert (x = q) by congruence. subst x. unfold vet_request in V. destruct I as (A & B & C). rewrite A, B in V.
    destruct (mem_bytes (r_fun q) (allowed_requests CServer lv)); auto. right.
    destruct (mem_bytes (r_fun q) globals_requests); auto.
    destruct lv; try congruence; destruct (vet_paths s (r_fun q) (r_args q)); congruence.
  - destruct I as (A & B & _). clear IH Ax d. revert H. assert (Lv1 : s_level s1 = lv) by (destruct L1; congruence).
    assert (Al1 : s_allowed s1 = allowed_requests CServer lv) by (destruct L1; congruence). clear L1 A B s.
    revert s1 ds s2 Sx Lv1 Al1. induction l as [|y l IH]; intros s1 ds s2 Sx Lv1 Al1 H.
    + cbn in Sx. injection Sx as <- <-. destruct H.
    + cbn [serve] in Sx. destruct (answer fb s1 y) as [d s3] eqn:Ay. destruct (serve fb s3 l) as [ds' s4] eqn:Sy.
      injection Sx as <- <-.
      assert (L1 : s_level s3 = s_level s1 /\ s_allowed s3 = s_allowed s1).
      { assert (Sv : serve fb s1 [y] = ([d], s3)) by (cbn [serve]; rewrite Ay; reflexivity). exact (serve_level fb [y] s1 [d] s3 Sv). }
      destruct H as [H|H].
      * subst d. unfold answer in Ay. destruct (vet_request s1 (r_fun y) (r_args y)) eqn:V; try discriminate.
        assert (y = q) by congruence. subst y. unfold vet_request in V. rewrite Lv1, Al1 in V.
        destruct (mem_bytes (r_fun q) (allowed_requests CServer lv)); auto. right.
        destruct (mem_bytes (r_fun q) globals_requests); auto.
        destruct lv; try congruence; destruct (vet_paths s1 (r_fun q) (r_args q)); congruence.
      * eapply IH; eauto; destruct L1; congruence.
Qed.

(** "calculate statistics" of a remote repository is refused by every server. *)
Theorem C69_statistics_refuted : forall fb tmp lv rdir base idx settings others n,
  lv <> LOverride -> exists s, initialize tmp CServer lv rdir [] = Some s /\
  forall q, In q (script base idx settings others QStatistics RRepo n) -> r_fun q = repo_f (bs "get_statistics") ->
    ~ In (Executed q) (fst (serve fb s (script base idx settings others QStatistics RRepo n))).
Proof.
  intros fb tmp lv rdir base idx settings others n Lo. unfold initialize. cbn [set_security_level]. eexists. split; [reflexivity|].
  match goal with |- context [serve fb ?x _] => set (s0 := x) end.
  assert (I0 : Inv lv s0) by (unfold s0; destruct rdir as [[|c q]|]; repeat split; auto).
  intros q Hq Hf H. destruct (executed_allowed fb lv s0 _ q I0 Lo H) as [X|X]; rewrite Hf in X;
  destruct lv; try congruence; vm_compute in X; discriminate.
Qed.

(** Comparing with a repository which lacks one of its two settings writes to it, hence is
    refused by a read-only server. *)
Theorem C69_compare_configures_refuted : forall fb tmp rdir base idx settings others m uctq use n,
  uctq || use = true -> exists s, initialize tmp CServer LReadOnly rdir [] = Some s /\
  exists q, In q (script base idx settings others (QCompare m uctq use) RRepo n) /\
    ~ In (Executed q) (fst (serve fb s (script base idx settings others (QCompare m uctq use) RRepo n))).
Proof.
  intros fb tmp rdir base idx settings others m uctq use n U. unfold initialize. cbn [set_security_level]. eexists. split; [reflexivity|].
  match goal with |- context [serve fb ?x _] => set (s0 := x) end.
  assert (I0 : Inv LReadOnly s0) by (unfold s0; destruct rdir as [[|c q]|]; repeat split; auto).
  exists (rq (repo_f (bs "set_config")) [AStr (if uctq then bs "chars_to_quote" else bs "special_escapes"); AOther]). split.
  - unfold script. apply in_or_app. right. apply in_or_app. left. cbn [repo_part]. apply in_or_app. right. apply in_or_app. right.
    apply in_or_app. right. apply in_or_app. left. unfold repo_setup.
    destruct uctq.
    + do 4 (apply in_or_app; right). apply in_or_app. left. right. left. reflexivity.
    + cbn in U. subst use. do 5 (apply in_or_app; right). apply in_or_app. left. right. left. reflexivity.
  - intro H. assert (Lo : LReadOnly <> LOverride) by discriminate. destruct (executed_allowed fb LReadOnly s0 _ _ I0 Lo H) as [X|X]; vm_compute in X; discriminate.
Qed.

(** A server in update-only mode does not undo an unfinished session: the next backup to
    it fails, until somebody else does. *)
Theorem C69_update_only_regress_refuted : forall fb tmp rdir base idx settings others uctq use n,
  exists s, initialize tmp CServer LUpdateOnly rdir [] = Some s /\
  exists q, In q (script base idx settings others (QBackup uctq use true) RRepo n) /\
    ~ In (Executed q) (fst (serve fb s (script base idx settings others (QBackup uctq use true) RRepo n))).
Proof.
  intros fb tmp rdir base idx settings others uctq use n. unfold initialize. cbn [set_security_level]. eexists. split; [reflexivity|].
  match goal with |- context [serve fb ?x _] => set (s0 := x) end.
  assert (I0 : Inv LUpdateOnly s0) by (unfold s0; destruct rdir as [[|c q]|]; repeat split; auto).
  exists (rq (repo_f (bs "regress")) []). split.
  - unfold script. apply in_or_app. right. apply in_or_app. left. cbn [repo_part]. do 5 (apply in_or_app; right).
    apply in_or_app. left. left. reflexivity.
  - intro H. assert (Lo : LUpdateOnly <> LOverride) by discriminate. destruct (executed_allowed fb LUpdateOnly s0 _ _ I0 Lo H) as [X|X]; vm_compute in X; discriminate.
Qed.

(** ** Concrete cases *)
Example requests_ex : exists s, initialize (bs "/tmp") CServer LUpdateOnly (Some (bs "/backups")) [] = Some s /\
  fst (serve (fun p => Some p) s (script (bs "/backups") [bs "host1"] [bs "current_time"] 1 (QBackup true true false) RRepo 2))
  = map Executed (script (bs "/backups") [bs "host1"] [bs "current_time"] 1 (QBackup true true false) RRepo 2)
  /\ length (script (bs "/backups") [bs "host1"] [bs "current_time"] 1 (QBackup true true false) RRepo 2) = 62.
Proof.
  destruct (C69_actions_accepted (fun p => Some p) (bs "/tmp") LUpdateOnly (bs "/backups") [bs "host1"] [bs "current_time"] 1
    (QBackup true true false) RRepo 2) as (s & A & B); try reflexivity; try discriminate.
  - split; [cbn; intros [X|[X|[]]]; discriminate|]. left. reflexivity.
  - intros x [<-|[]]. repeat split; try discriminate. cbn. intros [X|[X|[X|[X|[X|[]]]]]]; discriminate.
  - repeat constructor. discriminate.
  - exists s. split; auto.
Qed.
(** restricted to another directory it is refused *)
Example requests_outside :
  match initialize (bs "/tmp") CServer LUpdateOnly (Some (bs "/backups")) [] with
  | Some s => fst (serve (fun p => Some p) s (script (bs "/backup") [] [] 0 (QBackup false false false) RRepo 0))
              = map Executed (script (bs "/backup") [] [] 0 (QBackup false false false) RRepo 0)
  | None => False
  end -> False.
Proof. vm_compute. discriminate. Qed.

Print Assumptions C69_actions_accepted.
Print Assumptions C69_unrestricted_accepted.
Print Assumptions C69_statistics_refuted.
Print Assumptions C69_compare_configures_refuted.
Print Assumptions C69_update_only_regress_refuted.
