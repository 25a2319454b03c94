(** * C83: the sessions "calculate statistics" uses *)
From Coq Require Import List ZArith QArith Qround Bool Ascii Lia Sorted Permutation.
From Verif Require Import Base M_IncName M_Iter M_Meta M_Stats M_Average M_FileStats L_IncName M_StatSessions.
Import List ListNotations.
Local Open Scope Z_scope.

(** ** What is meant (independent of the model's dictionaries and sorts).  [n] is a file of the
    statistics [base] of time [t] in the directory, within the range *)
Definition stat_file (base : bytes) (begin end_ : option Z) (names : list bytes) (t : Z) (n : bytes) : Prop :=
  In n names /\ starts_with base n = true
  /\ (exists c label ty, parse_increment_name n = Some (c, label, t, ty, base))
  /\ match begin with None => True | Some x => x <= t end
  /\ match end_ with None => True | Some x => t <= x end.

Lemma in_ins x y l : In x (by_time_insert y l) <-> x = y \/ In x l.
Proof.
  induction l as [|a r IH]; cbn; [intuition congruence|].
  destruct (snd y <=? snd a); cbn; [intuition congruence|]. rewrite IH. intuition congruence.
Qed.
Lemma in_by_time x l : In x (by_time l) <-> In x l.
Proof.
  induction l as [|a r IH]; [easy|]. change (by_time (a :: r)) with (by_time_insert a (by_time r)).
  rewrite in_ins, IH. cbn. intuition congruence.
Qed.
Lemma in_key_ins t u l : In t (key_insert u l) <-> t = u \/ In t l.
Proof.
  induction l as [|a r IH]; cbn; [intuition congruence|].
  destruct (u <? a) eqn:E; cbn; [intuition congruence|].
  destruct (u =? a) eqn:F; cbn.
  - apply Z.eqb_eq in F. subst. intuition congruence.
  - rewrite IH. intuition congruence.
Qed.
Lemma in_keys t l : In t (keys l) <-> exists n, In (n, t) l.
Proof.
  unfold keys. induction l as [|[n u] r IH]; cbn.
  - split; [easy|intros (? & [])].
  - rewrite in_key_ins, IH. split.
    + intros [->|(m & H)]; eauto.
    + intros (m & [H|H]); [injection H; auto|eauto].
Qed.
Lemma key_ins_sorted t l : StronglySorted Z.lt l -> StronglySorted Z.lt (key_insert t l).
Proof.
  induction 1 as [|a r H IH F]; cbn; [repeat constructor|].
  destruct (t <? a) eqn:E.
  - apply Z.ltb_lt in E. constructor; [now constructor|]. constructor; [easy|].
    eapply Forall_impl; [|exact F]. cbn. lia.
  - destruct (t =? a) eqn:G; [now constructor|].
    apply Z.ltb_ge in E. apply Z.eqb_neq in G.
    constructor; [easy|]. rewrite Forall_forall in *. intros x Hx. apply in_key_ins in Hx as [->|Hx]; [lia|auto].
Qed.
Lemma keys_sorted l : StronglySorted Z.lt (keys l).
Proof. unfold keys. induction (map snd l) as [|a r IH]; cbn; [constructor|now apply key_ins_sorted]. Qed.
Lemma at_time_in t l n : at_time t l = Some n -> In (n, t) l.
Proof.
  unfold at_time. destruct (find _ _) as [[m u]|] eqn:E; [|easy].
  cbn. intros [= <-]. apply find_some in E as [H G]. cbn in G. apply Z.eqb_eq in G. subst.
  now apply in_rev.
Qed.
Lemma at_time_some t l n : In (n, t) l -> exists m, at_time t l = Some m.
Proof.
  intros H. unfold at_time. destruct (find _ _) as [[m u]|] eqn:E; [cbn; eauto|].
  exfalso. apply in_rev in H. apply (find_none _ _ E) in H. cbn in H. rewrite Z.eqb_refl in H. easy.
Qed.

(** the pairs along with their times *)
Definition timed (l1 l2 : list (bytes * Z)) : list (Z * (bytes * bytes)) :=
  flat_map (fun t => match at_time t l1, at_time t l2 with Some a, Some b => [(t, (a, b))] | _, _ => [] end) (keys l1).
Lemma timed_pairs l1 l2 : map snd (timed l1 l2) = combined_pairs l1 l2.
Proof.
  unfold timed, combined_pairs. induction (keys l1) as [|t r IH]; [easy|]. cbn.
  rewrite map_app, IH. destruct (at_time t l1), (at_time t l2); easy.
Qed.
Lemma timed_sorted l1 l2 : StronglySorted (fun x y => fst x < fst y) (timed l1 l2).
Proof.
  unfold timed. induction (keys_sorted l1) as [|t r H IH F]; [constructor|]. cbn.
  destruct (at_time t l1), (at_time t l2); cbn; try exact IH.
  constructor; [exact IH|]. apply Forall_forall. intros [u p] Hu.
  apply in_flat_map in Hu as (v & Hv & Hu). rewrite Forall_forall in F. specialize (F v Hv).
  destruct (at_time v l1), (at_time v l2); try easy. destruct Hu as [[= <- <-]|[]]. exact F.
Qed.
Lemma in_timed t a b l1 l2 : In (t, (a, b)) (timed l1 l2) <-> at_time t l1 = Some a /\ at_time t l2 = Some b.
Proof.
  unfold timed. rewrite in_flat_map. split.
  - intros (u & _ & H). destruct (at_time u l1) eqn:E, (at_time u l2) eqn:G; try easy.
    destruct H as [[= <- <- <-]|[]]. auto.
  - intros [H G]. exists t. split; [apply in_keys; eauto using at_time_in|]. rewrite H, G. now left.
Qed.

(** C83: which files are used.  The pairs are in the order of strictly increasing times; both
    files of a pair have its time and are in the range; a time is there iff there is a
    session_statistics and a file_statistics file of it in the range *)
Theorem C83_pairs : forall begin end_ names,
  exists l : list (Z * (bytes * bytes)),
    combined_pairs (by_time (incfiles_list (bs "session_statistics") begin end_ names))
                   (by_time (incfiles_list (bs "file_statistics") begin end_ names)) = map snd l
    /\ StronglySorted (fun x y => fst x < fst y) l
    /\ (forall t s f, In (t, (s, f)) l ->
          stat_file (bs "session_statistics") begin end_ names t s
          /\ stat_file (bs "file_statistics") begin end_ names t f)
    /\ (forall t, (exists p, In (t, p) l) <->
          (exists s, stat_file (bs "session_statistics") begin end_ names t s)
          /\ (exists f, stat_file (bs "file_statistics") begin end_ names t f)).
Proof.
  intros. set (l1 := by_time _). set (l2 := by_time (incfiles_list (bs "file_statistics") _ _ _)).
  assert (I1 : forall n t, In (n, t) l1 <-> stat_file (bs "session_statistics") begin end_ names t n).
  { intros n t. unfold l1. rewrite in_by_time. apply incfiles_list_in. }
  assert (I2 : forall n t, In (n, t) l2 <-> stat_file (bs "file_statistics") begin end_ names t n).
  { intros n t. unfold l2. rewrite in_by_time. apply incfiles_list_in. }
  exists (timed l1 l2). split; [symmetry; apply timed_pairs|]. split; [apply timed_sorted|]. split.
  - intros t s f H. apply in_timed in H as [H G]. apply at_time_in in H, G. split; [now apply I1|now apply I2].
  - intros t. split.
    + intros ([s f] & H). apply in_timed in H as [H G]. apply at_time_in in H, G.
      split; [exists s; now apply I1|exists f; now apply I2].
    + intros ((s & H) & (f & G)). apply I1 in H. apply I2 in G.
      apply at_time_some in H as (a & H). apply at_time_some in G as (b & G).
      exists (a, b). apply in_timed. auto.
Qed.
Print Assumptions C83_pairs.

(** C83: without a session having both files in the range there is a warning (2) and nothing
    else; this is the only case of this warning *)
Theorem C83_warning : forall ratio read_s read_f begin end_ names,
  calculate_code (get_statistics ratio read_s read_f begin end_ names) = 2 <->
  ~ exists t s f, stat_file (bs "session_statistics") begin end_ names t s
                  /\ stat_file (bs "file_statistics") begin end_ names t f.
Proof.
  intros. destruct (C83_pairs begin end_ names) as (l & E & _ & _ & H).
  unfold get_statistics. rewrite E. destruct l as [|[t p] l].
  - cbn. split; [|easy]. intros _ (t & s & f & A & B).
    destruct (proj2 (H t)) as (p & []). eauto.
  - cbn [map]. split.
    + cbv zeta. destruct (cutoffs _ _); [destruct (files_sum _ _)|]; easy.
    + intros N. exfalso. apply N. destruct (proj1 (H t)) as ((s & A) & (f & B)); [exists p; now left|]. eauto.
Qed.
Print Assumptions C83_warning.

Lemma option_all_some {T} (l : list (option T)) r : option_all l = Some r -> l = map Some r.
Proof.
  revert r. induction l as [|[x|] l IH]; intros r; cbn; try (now intros [= <-]); try easy.
  destruct (option_all l) as [s|]; [|easy]. intros [= <-]. cbn. now rewrite (IH s).
Qed.
Lemma option_all_map {T} (l : list T) : option_all (map Some l) = Some l.
Proof. induction l as [|x l IH]; [easy|]. cbn. now rewrite IH. Qed.

(** C83: what is shown: the average over exactly those sessions, each once, and the sum of
    their trees of files, in which the files of a session are measured with the cutoff of
    this very session, and the cutoffs summed up *)
Theorem C83_result : forall ratio read_s read_f begin end_ names avg n c t,
  get_statistics ratio read_s read_f begin end_ names = Statistics avg n (c, t) ->
  exists l : list (Z * (bytes * bytes)),
    l <> [] /\ StronglySorted (fun x y => fst x < fst y) l
    /\ (forall t s f, In (t, (s, f)) l ->
          stat_file (bs "session_statistics") begin end_ names t s
          /\ stat_file (bs "file_statistics") begin end_ names t f)
    /\ (forall t, (exists p, In (t, p) l) <->
          (exists s, stat_file (bs "session_statistics") begin end_ names t s)
          /\ (exists f, stat_file (bs "file_statistics") begin end_ names t f))
    /\ avg = calc_average (map (fun x => read_s (fst (snd x))) l) /\ n = length l
    /\ exists trees : list ((Q * Q * Q) * ftree),
         Forall2 (fun x ct => get_cutoff ratio (read_s (fst (snd x))) = Some (fst ct)
                              /\ make_tree (cut_stat (fst ct)) (read_f (snd (snd x))) = Some (snd ct)) l trees
         /\ exists first rest, trees = first :: rest /\ fold_left tree_add rest (Some first) = Some (c, t).
Proof.
  intros ratio read_s read_f begin end_ names avg n c t.
  destruct (C83_pairs begin end_ names) as (l & E & S1 & S2 & S3).
  unfold get_statistics. rewrite E. clear E.
  destruct (map snd l) as [|x0 l0] eqn:El; [easy|]. cbv zeta. rewrite <- El.
  intros H.
  assert (Hl : l <> []). { intros ->. easy. }
  destruct (cutoffs ratio _) as [cs|] eqn:Ec; [|easy].
  destruct (files_sum _ cs) as [f|] eqn:Ef; [|easy]. injection H as <- <- ->.
  rewrite !map_map in *. exists l. split; [easy|]. split; [easy|]. split; [easy|]. split; [easy|].
  split; [easy|]. split; [now rewrite map_length|].
  unfold cutoffs in Ec. apply option_all_some in Ec. rewrite map_map in Ec.
  unfold files_sum in Ef.
  destruct (option_all _) as [[|x r]|] eqn:Et; [easy| |easy].
  exists (x :: r). split; [|eauto]. apply option_all_some in Et. clear Ef S1 S2 S3 El Hl.
  revert cs Ec Et. generalize (x :: r) as trees. induction l as [|y l IH]; intros trees [|c0 cs] Ec Et; try easy.
  - destruct trees; [constructor|easy].
  - cbn in Ec, Et. destruct trees as [|ct trees]; [easy|]. injection Ec as Ec0 Ec. cbn [map] in Et.
    injection Et as Et0 Et. constructor; [|now apply (IH trees cs)].
    destruct (make_tree _ _) eqn:Em; [|easy]. cbn in Et0. injection Et0 as <-. auto.
Qed.
Print Assumptions C83_result.

(** C83 (finding): one session whose statistics lack the size of its source (a file cut off)
    makes the whole calculation fail *)
Theorem C83_incomplete_session_refuted : forall ratio read_s read_f begin end_ names t s f,
  stat_file (bs "session_statistics") begin end_ names t s ->
  stat_file (bs "file_statistics") begin end_ names t f ->
  (forall s', stat_file (bs "session_statistics") begin end_ names t s' -> read_s s' (bs "SourceFileSize") = None) ->
  get_statistics ratio read_s read_f begin end_ names = StatsFailed
  /\ calculate_code (get_statistics ratio read_s read_f begin end_ names) = 1.
Proof.
  intros ratio read_s read_f begin end_ names t s f Hs Hf Hn.
  destruct (get_statistics ratio read_s read_f begin end_ names) as [| |a n [c tr]] eqn:E.
  - exfalso. assert (X : calculate_code (get_statistics ratio read_s read_f begin end_ names) = 2) by now rewrite E.
    apply C83_warning in X. apply X. eauto.
  - easy.
  - exfalso. destruct (C83_result _ _ _ _ _ _ _ _ _ _ E) as (l & _ & _ & A & B & _ & _ & trees & F & _).
    destruct (proj2 (B t)) as ([s' f'] & I); [eauto|].
    destruct (A _ _ _ I) as [As _]. specialize (Hn s' As).
    clear -F I Hn. induction F as [|x ct l trees [G _] _ IH]; [easy|]. destruct I as [->|I]; [|auto].
    cbn in G. unfold get_cutoff in G. rewrite Hn in G.
    destruct (read_s s' (bs "NewFiles")), (read_s s' (bs "ChangedFiles")); easy.
Qed.
Print Assumptions C83_incomplete_session_refuted.

(** two sessions, the second without file statistics; a third one out of range *)
Example C83_example :
  combined_pairs
    (by_time (incfiles_list (bs "session_statistics") None (Some 1000005000)
      [bs "session_statistics.2001-09-09T02:46:40Z.data"; bs "session_statistics.2001-09-09T01:46:40Z.data"; bs "mirror_metadata.2001-09-09T01:46:40Z.snapshot.gz"]))
    (by_time (incfiles_list (bs "file_statistics") None (Some 1000005000)
      [bs "file_statistics.2001-09-09T01:46:40Z.data.gz"; bs "file_statistics.2001-09-09T06:46:40Z.data.gz"]))
  = [(bs "session_statistics.2001-09-09T01:46:40Z.data", bs "file_statistics.2001-09-09T01:46:40Z.data.gz")].
Proof. vm_compute. reflexivity. Qed.
