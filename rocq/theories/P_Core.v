(** * C01, C04, C05, C34: history, removal, choice of the restore time *)
From Coq Require Import List ZArith Bool Lia Sorting.Permutation Sorting.Sorted.
From Verif Require Import Base L_Base M_Core L_Core.
Import List ListNotations.
Local Open Scope Z_scope.

(** ** Specification *)

(** the same file as far as rdiff-backup compares attributes: same kind, same
    content, attributes equal or equal in the sense of the comparison *)
Definition same_state {attr} (same : attr -> attr -> bool) (x y : node attr) : Prop :=
  match x, y with
  | Absent, Absent => True
  | Reg c a, Reg c' a' => c = c' /\ (a = a' \/ same a a' = true)
  | Dir a, Dir a' => a = a' \/ same a a' = true
  | Spec d a, Spec d' a' => d = d' /\ (a = a' \/ same a a' = true)
  | _, _ => False
  end.

Definition hist attr := list (Z * node attr * outcome attr).
Definition h_time {attr} (x : Z * node attr * outcome attr) := fst (fst x).
Definition h_src {attr} (x : Z * node attr * outcome attr) := snd (fst x).
Definition h_out {attr} (x : Z * node attr * outcome attr) := snd x.

(** sessions run one after the other, each later than the one before *)
Definition times_increase {attr} (h : hist attr) : Prop :=
  StronglySorted (fun x y => h_time x < h_time y) h.

(** no two versions of the file agree in size and compared attributes (e.g.
    mtime) but differ in content *)
Definition changes_show {attr} (same : attr -> attr -> bool) (h : hist attr) : Prop :=
  forall x y c a c' a', In x h -> In y h -> h_src x = Reg c a -> h_src y = Reg c' a' ->
    length c = length c' -> same a a' = true -> c = c'.

(** no error caught between writing the increment and replacing the mirror file *)
Definition no_late_error {attr} (h : hist attr) : Prop :=
  Forall (fun x => match h_out x with OIncFail _ | ORenameFail => False | _ => True end) h.

(** the contents which occur in the history, and the empty one *)
Definition occurs {attr} (h : hist attr) (c : bytes) : Prop :=
  c = [] \/ exists x a, In x h /\ h_src x = Reg c a.

(** librsync's patch undoes its delta, for the contents in question *)
Definition librsync_works (occ : bytes -> Prop) (delta : bytes -> bytes -> bytes)
    (patch : bytes -> bytes -> option bytes) : Prop :=
  forall basis new, occ basis -> occ new -> patch basis (delta basis new) = Some new.

(** no two of the contents in question have the same SHA-1 *)
Definition no_collision {attr} (occ : bytes -> Prop) (sha1 : attr -> bytes -> option bytes) : Prop :=
  forall a b x y h, occ x -> occ y -> sha1 a x = Some h -> sha1 b y = Some h -> x = y.

(** the hash of every file is known *)
Definition hashes_known {attr} (sha1 : attr -> bytes -> option bytes) : Prop :=
  forall a c, sha1 a c <> None.

(** the update of the file worked in this session *)
Definition updated {attr} (o : outcome attr) : Prop :=
  match o with OOk | OFill | OSpecialFail _ => True | _ => False end.

Section Thms.
Context {attr : Type}.
Variables (delta : bytes -> bytes -> bytes) (patch : bytes -> bytes -> option bytes)
          (sha1 : attr -> bytes -> option bytes) (same : attr -> attr -> bool).

Notation run h := (sessions delta sha1 same h empty_ps).
Notation recd := (recorded sha1 same).

Lemma recall_in h : forall recs x, In x recs -> In x (recall sha1 same recs h).
Proof.
  induction h as [|[[t s] o] h IH]; intros recs x Hx; cbn; [assumption|].
  apply IH. now right.
Qed.

Definition from_hist (h : hist attr) (w : node attr) : Prop :=
  w = Absent \/ exists x, In x h /\ h_src x = w.

Lemma recorded_from h v s o t : from_hist h v -> In (t, s, o) h -> from_hist h (recd v s o).
Proof.
  intros Hv Hin. unfold recorded.
  assert (from_hist h s) by (right; exists (t, s, o); auto).
  destruct (meta_same same s (meta_of sha1 v)).
  - destruct o, s; assumption.
  - destruct o; auto. destruct s; auto. now left.
Qed.

Lemma recorded_sim h v s o t : changes_show same h -> from_hist h v -> In (t, s, o) h ->
  updated o -> same_state same s (recd v s o).
Proof.
  intros Hc Hv Hin Ho. unfold recorded. destruct (meta_same same s (meta_of sha1 v)) eqn:E.
  - assert (Hsv : same_state same s v).
    { destruct s, v; cbn in *; try discriminate; auto.
      + apply andb_true_iff in E as [E1 E2]. apply Nat.eqb_eq in E1. split; [|now right].
        destruct Hv as [Hv|(x & Hx & Ex)]; [discriminate|].
        apply (Hc (t, Reg content a, o) x content a content0 a0); auto.
      + apply andb_true_iff in E as [E1 E2]. apply beq_bytes_true in E1. auto. }
    destruct o, s; try assumption. cbn. auto.
  - destruct o; try destruct Ho; destruct s; cbn; auto.
Qed.

Lemma recall_sim h : forall H recs, changes_show same H -> (forall x, In x h -> In x H) ->
  (match recs with (_, v) :: _ => from_hist H v | [] => True end) ->
  forall t s o, In (t, s, o) h -> updated o ->
  exists w, In (t, w) (recall sha1 same recs h) /\ same_state same s w.
Proof.
  induction h as [|[[t0 s0] o0] h IH]; intros H recs Hc Hsub Hr t s o Hin Ho; [destruct Hin|].
  assert (Hv : from_hist H (match recs with (_, v) :: _ => v | [] => Absent end)).
  { destruct recs as [|[? ?] ?]; [now left|assumption]. }
  destruct Hin as [E|Hin].
  - injection E as -> -> ->. cbn. eexists. split; [apply recall_in; now left|].
    eapply recorded_sim; eauto. apply Hsub. now left.
  - cbn. eapply IH; eauto.
    + intros x Hx. apply Hsub. now right.
    + cbn. eapply recorded_from; eauto. apply Hsub. now left.
Qed.

Lemma occurs_okn (h H : hist attr) : (forall x, In x h -> In x H) ->
  Forall (fun x => okn (occurs H) (snd (fst x))) h.
Proof.
  intros Hsub. apply Forall_forall. intros [[t s] o] Hx. cbn. destruct s as [|c a| |]; try exact I.
  cbn. right. exists (t, Reg c a, o), a. auto.
Qed.

Lemma run_inv_on (h H : hist attr) : (forall x, In x h -> In x H) ->
  librsync_works (occurs H) delta patch -> no_collision (occurs H) sha1 ->
  times_increase h -> no_late_error h ->
  Inv patch sha1 (occurs H) (recall sha1 same [] h) (run h).
Proof.
  intros Hsub Hd Hs Ht Hg. apply inv_sessions; auto.
  - now left.
  - apply inv_empty.
  - now apply occurs_okn.
Qed.

Lemma run_inv (h : hist attr) : librsync_works (occurs h) delta patch -> no_collision (occurs h) sha1 ->
  times_increase h -> no_late_error h ->
  Inv patch sha1 (occurs h) (recall sha1 same [] h) (run h).
Proof.
  apply run_inv_on. auto.
Qed.

(** ** C01 *)

(** After any history, whatever order the directory listing returns the
    increment files in, restoring at the time of a session in which the update
    of the file worked gives back the state the source had in that session. *)
Lemma every_session_restorable (h : hist attr) listing t s o :
  librsync_works (occurs h) delta patch -> no_collision (occurs h) sha1 ->
  times_increase h -> no_late_error h -> changes_show same h ->
  Permutation listing (incs (run h)) ->
  In (t, s, o) h -> updated o ->
  exists n, restore patch t (mk_ps (mirror (run h)) listing (metas (run h))) = ROk n /\
            same_state same s n.
Proof.
  intros Hd Hsh Ht Hg Hc HP Hin Ho.
  destruct (recall_sim h h [] Hc (fun x H => H) I t s o Hin Ho) as (w & Hw & Hs).
  exists w. split; [|assumption].
  eapply restore_ok; eauto using run_inv.
Qed.

Lemma recall_app h1 h2 recs :
  recall sha1 same recs (h1 ++ h2) = recall sha1 same (recall sha1 same recs h1) h2.
Proof. revert recs. induction h1 as [|[[t s] o] h1 IH]; intros; cbn; auto. Qed.

Lemma recall_length h recs : length (recall sha1 same recs h) = (length h + length recs)%nat.
Proof.
  revert recs. induction h as [|[[t s] o] h IH]; intros; cbn; auto.
  rewrite IH. cbn. lia.
Qed.

Lemma recall_hd_time h x recs : match recall sha1 same recs (h ++ [x]) with
  (t, _) :: _ => t = h_time x | [] => False end.
Proof. rewrite recall_app. destruct x as [[t s] o]. reflexivity. Qed.

(** A session in which the update of the file failed leaves the file as it was in
    the session before. *)
Lemma failed_update_keeps (h1 h2 : hist attr) t0 s0 o0 t s :
  let h := h1 ++ [(t0, s0, o0)] ++ (t, s, OPatchFail) :: h2 in
  librsync_works (occurs h) delta patch -> no_collision (occurs h) sha1 ->
  times_increase h -> no_late_error h ->
  restore patch t (run h) = restore patch t0 (run h).
Proof.
  intros h Hd Hsh Ht Hg. pose proof (run_inv h Hd Hsh Ht Hg) as HI.
  assert (E : recall sha1 same [] h =
    recall sha1 same (recall sha1 same [] (h1 ++ [(t0, s0, o0)])) ((t, s, OPatchFail) :: h2)).
  { unfold h. rewrite app_assoc. apply recall_app. }
  destruct (recall sha1 same [] (h1 ++ [(t0, s0, o0)])) as [|[t1 v1] r] eqn:E1.
  { pose proof (recall_hd_time h1 (t0, s0, o0) []) as H. rewrite E1 in H. destruct H. }
  pose proof (recall_hd_time h1 (t0, s0, o0) []) as H. rewrite E1 in H. cbn in H. subst t1.
  cbn [recall] in E.
  assert (Hr : recd v1 s OPatchFail = v1).
  { unfold recorded. now destruct (meta_same same s (meta_of sha1 v1)). }
  rewrite Hr in E.
  transitivity (@ROk (node attr) v1); [|symmetry].
  - eapply restore_ok; eauto. rewrite E. apply recall_in. now left.
  - eapply restore_ok; eauto. rewrite E. apply recall_in. right. now left.
Qed.

(** ** C04 *)

Lemma removal_keeps (h : hist attr) rt r :
  librsync_works (occurs h) delta patch -> no_collision (occurs h) sha1 ->
  h <> [] -> (forall x, In x h -> exists y, In y h /\ h_time x <= h_time y /\ rt <= h_time y) ->
  times_increase h -> no_late_error h -> rt <= r ->
  restore patch r (remove_older rt (run h)) = restore patch r (run h).
Proof.
  intros Hd Hsh Hne Hl Ht Hg Hr. pose proof (run_inv h Hd Hsh Ht Hg) as HI.
  destruct (exists_last Hne) as (h' & x & ->).
  pose proof (recall_hd_time h' x []) as Hx.
  destruct (recall sha1 same [] (h' ++ [x])) as [|[tm v] recs] eqn:E; [destruct Hx|]. subst tm.
  destruct HI as [IM _ _ _ _ _ _ _].
  cbn in IM. eapply restore_remove; eauto.
  destruct (Hl x) as (y & Hy & H1 & H2); [apply in_or_app; right; now left|].
  enough (h_time y <= h_time x) by lia.
  apply in_app_or in Hy as [Hy|[<-|[]]]; [|lia].
  clear - Ht Hy. unfold times_increase in Ht. induction h' as [|z h' IH]; [destruct Hy|].
  cbn in Ht. inversion Ht; subst. destruct Hy as [->|Hy]; [|auto].
  rewrite Forall_forall in H2. assert (Hx : In x (h' ++ [x])) by (apply in_or_app; right; now left).
  specialize (H2 x Hx). lia.
Qed.
End Thms.

(** ** Theorems *)

Theorem C01_every_session_restorable :
  forall (attr : Type) delta patch sha1 (same : attr -> attr -> bool)
    (h : hist attr) listing t s o,
  librsync_works (occurs h) delta patch -> no_collision (occurs h) sha1 ->
  times_increase h -> no_late_error h -> changes_show same h ->
  let repo := sessions delta sha1 same h empty_ps in
  Permutation listing (incs repo) ->
  In (t, s, o) h -> updated o ->
  exists n, restore patch t (mk_ps (mirror repo) listing (metas repo)) = ROk n /\
            same_state same s n.
Proof. intros. eapply every_session_restorable; eauto. Qed.

Theorem C01_failed_update_keeps_previous :
  forall (attr : Type) delta patch sha1 (same : attr -> attr -> bool)
    (h1 h2 : hist attr) t0 s0 o0 t s,
  let h := h1 ++ [(t0, s0, o0)] ++ (t, s, OPatchFail) :: h2 in
  librsync_works (occurs h) delta patch -> no_collision (occurs h) sha1 ->
  times_increase h -> no_late_error h ->
  let repo := sessions delta sha1 same h empty_ps in
  restore patch t repo = restore patch t0 repo.
Proof. intros. eapply failed_update_keeps; eauto. Qed.

Theorem C04_removal_preserves_retained :
  forall (attr : Type) delta patch sha1 (same : attr -> attr -> bool)
    (h : hist attr) rt r,
  librsync_works (occurs h) delta patch -> no_collision (occurs h) sha1 ->
  h <> [] ->
  (* the removal time isn't after the newest session *)
  (forall x, In x h -> exists y, In y h /\ h_time x <= h_time y /\ rt <= h_time y) ->
  times_increase h -> no_late_error h ->
  rt <= r ->
  let repo := sessions delta sha1 same h empty_ps in
  restore patch r (remove_older rt repo) = restore patch r repo.
Proof. intros. eapply removal_keeps; eauto. Qed.

Theorem C04_only_older_deleted :
  forall (attr : Type) rt (ps : @pstate attr),
  mirror (remove_older rt ps) = mirror ps /\
  (forall t i, In (t, i) (incs (remove_older rt ps)) <-> In (t, i) (incs ps) /\ rt <= t) /\
  (forall t m, In (t, m) (metas (remove_older rt ps)) <-> In (t, m) (metas ps) /\ rt <= t).
Proof.
  intros. split; [reflexivity|].
  split; intros; unfold remove_older; cbn; rewrite filter_In; cbn;
    rewrite negb_true_iff, Z.ltb_ge; tauto.
Qed.

(** ** C05 *)

(** Without --force a removal only happens when exactly one increment of the
    root directory is older than the given time. *)
Theorem C05_without_force_exactly_one :
  forall at_ times rt,
  get_removal_time (Some at_) false times = RemBefore rt ->
  exists t, filter (fun x => x <? at_) times = [t] /\ rt = t + 1.
Proof.
  intros at_ times rt. unfold get_removal_time.
  destruct (filter (fun t => t <? at_) times) as [|x [|y l]] eqn:E; try discriminate.
  - cbn. intros [= <-]. eauto.
  - set (o := x :: y :: l) in *.
    assert (Hl : Nat.ltb 1 (length (zsort o)) = true).
    { rewrite <- (Permutation_length (zsort_perm o)). reflexivity. }
    rewrite Hl. discriminate.
Qed.

(** In every case, the removal time is right after the newest increment older
    than the given time: nothing at or after the given time is touched and
    everything counted is removed. *)
Theorem C05_removal_time :
  forall at_ force times rt,
  get_removal_time (Some at_) force times = RemBefore rt ->
  rt <= at_ /\
  (forall t, In t times -> (t < rt <-> t < at_)) /\
  (exists t, In t times /\ rt = t + 1).
Proof.
  intros at_ force times rt. unfold get_removal_time.
  destruct (filter (fun t => t <? at_) times) as [|x l] eqn:E; [discriminate|].
  set (o := x :: l) in *.
  destruct (Nat.ltb 1 (length (zsort o)) && negb force); [discriminate|]. intros Hrt.
  assert (rt = last (zsort o) 0 + 1) as -> by congruence. clear Hrt.
  assert (Hin : forall t, In t (zsort o) <-> In t times /\ t < at_).
  { intros t. rewrite <- Z.ltb_lt. rewrite <- (filter_In (fun t => t <? at_)), E.
    split; apply Permutation_in; [apply Permutation_sym|]; apply zsort_perm. }
  assert (Hne : zsort o <> []).
  { intros H0. pose proof (Permutation_length (zsort_perm o)) as HL. rewrite H0 in HL. discriminate. }
  assert (Hl : In (last (zsort o) 0) times /\ last (zsort o) 0 < at_).
  { apply Hin. now apply last_in. }
  split; [lia|]. split.
  - intros t Ht. split; [lia|]. intros Hlt.
    pose proof (sorted_last (zsort o) 0 (zsort_sorted o) t (proj2 (Hin t) (conj Ht Hlt))). lia.
  - exists (last (zsort o) 0). intuition.
Qed.

Theorem C05_nothing_to_remove :
  forall at_ force times,
  get_removal_time (Some at_) force times = RemNothing <->
  forall t, In t times -> at_ <= t.
Proof.
  intros. unfold get_removal_time. split.
  - destruct (filter (fun t => t <? at_) times) as [|x l] eqn:E.
    + intros _ t Ht. destruct (Z.lt_ge_cases t at_) as [H|H]; [|lia].
      assert (In t []) as []. rewrite <- E. apply filter_In. now rewrite Z.ltb_lt.
    + destruct (Nat.ltb _ _ && negb force); discriminate.
  - intros H. replace (filter (fun t => t <? at_) times) with (@nil Z); [reflexivity|].
    symmetry. induction times as [|x l IH]; [reflexivity|]. cbn.
    rewrite (proj2 (Z.ltb_ge x at_)) by (apply H; now left).
    apply IH. intros t Ht. apply H. now right.
Qed.

Theorem C05_unparsable_refused :
  forall force times, get_removal_time None force times = RemRefuse.
Proof. reflexivity. Qed.

(** ** C34 *)

Theorem C34_restore_time :
  forall T times t,
  set_restore_time T times = Some t ->
  In t times /\
  ((t <= T /\ forall u, In u times -> u <= T -> u <= t) \/
   (T < t /\ forall u, In u times -> t <= u)).
Proof.
  intros T times t. unfold set_restore_time.
  destruct (zmax_list (filter (fun x => x <=? T) times)) as [m|] eqn:E.
  - intros [= <-]. apply zmax_list_spec in E as [H1 H2].
    apply filter_In in H1 as [H1 H3]. apply Z.leb_le in H3. split; [assumption|].
    left. split; [assumption|]. intros u Hu Hle. apply H2. apply filter_In.
    now rewrite Z.leb_le.
  - intros Hm. apply zmin_list_spec in Hm as [H1 H2]. split; [assumption|].
    right. split; [|assumption]. apply zmax_none in E.
    destruct (Z.lt_ge_cases T t) as [H|H]; [assumption|].
    assert (In t []) as []. rewrite <- E. apply filter_In. rewrite Z.leb_le. split; [assumption|lia].
Qed.

Theorem C34_restore_time_exists :
  forall T times, times <> [] -> exists t, set_restore_time T times = Some t.
Proof.
  intros T times H. unfold set_restore_time.
  destruct (zmax_list _); [eauto|]. destruct times; [congruence|]. cbn. eauto.
Qed.

Theorem C34_candidate_times :
  forall x mirror_time root_incs metafiles,
  In x (get_increment_times mirror_time root_incs metafiles) <->
  x = mirror_time \/ In x root_incs \/ In x metafiles.
Proof. exact increment_times_in. Qed.

Lemma session_times_metas {attr} delta sha1 (same : attr -> attr -> bool) (h : hist attr) :
  forall ps t, In t (map fst (metas (sessions delta sha1 same h ps))) <->
    In t (map fst (metas ps)) \/ exists x, In x h /\ h_time x = t.
Proof.
  induction h as [|[[t0 s] o] h IH]; intros ps t; cbn [sessions].
  - split; [tauto|]. intros [H|(x & [] & _)]. assumption.
  - rewrite IH. unfold session at 1. destruct (update _ _ _ _ _ _ _) as [[m l] md].
    cbn. split.
    + intros [[->|H]|(x & Hx & <-)]; [|tauto|].
      * right. exists (t, s, o). auto.
      * right. exists x. auto.
    + intros [H|(x & [<-|Hx] & <-)]; [tauto| |]; cbn; [tauto|].
      right. eauto.
Qed.

(** Restoring "as of" an arbitrary time T: the session found is the last one not
    after T, and the file comes back as it was then. *)
Theorem C34_restore_as_of :
  forall (attr : Type) delta patch sha1 (same : attr -> attr -> bool)
    (h : hist attr) T mirror_time root_incs t s,
  librsync_works (occurs h) delta patch -> no_collision (occurs h) sha1 ->
  times_increase h -> no_late_error h -> changes_show same h ->
  let repo := sessions delta sha1 same h empty_ps in
  (* the root increments and the mirror marker carry times of sessions *)
  (forall u, u = mirror_time \/ In u root_incs -> exists x, In x h /\ h_time x = u) ->
  In (t, s, OOk) h -> t <= T ->
  (forall x, In x h -> h_time x <= T -> h_time x <= t) ->
  exists n,
    set_restore_time T (get_increment_times mirror_time root_incs (map fst (metas repo)))
      = Some t /\
    restore patch t repo = ROk n /\ same_state same s n.
Proof.
  intros attr delta patch sha1 same h T mt root t s Hd Hs Hi Hg Hc repo Hu Hin Ht Hmax.
  destruct (C01_every_session_restorable attr delta patch sha1 same h (incs repo) t s OOk Hd Hs
    Hi Hg Hc (Permutation_refl _) Hin I) as (n & H1 & H2).
  exists n. split; [|split; [|assumption]].
  2:{ unfold repo in *. destruct (sessions delta sha1 same h empty_ps). exact H1. }
  set (times := get_increment_times mt root (map fst (metas repo))).
  assert (Htimes : forall u, In u times <-> exists x, In x h /\ h_time x = u).
  { intros u. unfold times. rewrite increment_times_in. unfold repo.
    rewrite session_times_metas. cbn [metas empty_ps map In]. split.
    - intros [H|[H|[[]|H]]]; auto.
    - intros H. tauto. }
  destruct (C34_restore_time_exists T times) as (t' & Ht').
  { intros E. assert (In t times) as H by (apply Htimes; exists (t, s, OOk); auto).
    rewrite E in H. destruct H. }
  rewrite Ht'. f_equal. apply C34_restore_time in Ht' as [Hin' Hor].
  assert (Int : In t times) by (apply Htimes; exists (t, s, OOk); auto).
  destruct Hor as [[Hle Hm]|[Hlt Hm]].
  - specialize (Hm t Int Ht). apply Htimes in Hin' as (x & Hx & <-).
    specialize (Hmax x Hx Hle). lia.
  - specialize (Hm t Int). lia.
Qed.

(** `remove increments --older-than` end to end: whatever time is given, every
    session at or after it is restored as before. *)
Theorem C04_remove_older_than_end_to_end :
  forall (attr : Type) delta patch sha1 (same : attr -> attr -> bool)
    (h : hist attr) last_session at_ force root_incs rt r,
  librsync_works (occurs h) delta patch -> no_collision (occurs h) sha1 ->
  In last_session h -> (forall x, In x h -> h_time x <= h_time last_session) ->
  (* increments of the root directory are older than the last session *)
  (forall u, In u root_incs -> u < h_time last_session) ->
  times_increase h -> no_late_error h ->
  let repo := sessions delta sha1 same h empty_ps in
  get_removal_time (Some at_) force root_incs = RemBefore rt ->
  at_ <= r ->
  restore patch r (remove_older rt repo) = restore patch r repo.
Proof.
  intros attr delta patch sha1 same h x at_ force root rt r Hd Hs Hin Hmax Hroot Hi Hg repo Hrt Hr.
  destruct (C05_removal_time _ _ _ _ Hrt) as (H1 & _ & (t & Ht & ->)).
  specialize (Hroot t Ht).
  apply (C04_removal_preserves_retained attr delta patch sha1 same); auto; try lia.
  - intros ->. destruct Hin.
  - intros y Hy. exists x. split; [assumption|]. specialize (Hmax y Hy). lia.
Qed.

(** ** A concrete delta algorithm: copy the common suffix from the basis *)
Fixpoint lcp (x y : bytes) : nat :=
  match x, y with
  | a :: x', b :: y' => if ascii_dec a b then S (lcp x' y') else O
  | _, _ => O
  end.
Definition lcs (x y : bytes) : nat := lcp (rev x) (rev y).
Definition sdelta (basis new : bytes) : bytes :=
  repeat "c"%char (length basis - lcs basis new) ++
  "l"%char :: firstn (length new - lcs basis new) new.
Fixpoint spatch_at (off : nat) (basis d : bytes) : option bytes :=
  match d with
  | [] => None
  | x :: d' => if Ascii.eqb x "c" then spatch_at (S off) basis d'
               else Some (d' ++ skipn off basis)
  end.
Definition spatch := spatch_at 0.

Lemma lcp_firstn x y : firstn (lcp x y) x = firstn (lcp x y) y.
Proof.
  revert y. induction x as [|a x IH]; intros [|b y]; cbn; try reflexivity.
  destruct (ascii_dec a b); cbn; [subst; now rewrite IH|reflexivity].
Qed.
Lemma lcp_le x y : (lcp x y <= length x)%nat /\ (lcp x y <= length y)%nat.
Proof.
  revert y. induction x as [|a x IH]; intros [|b y]; cbn; try lia.
  destruct (ascii_dec a b); cbn; [specialize (IH y); lia|lia].
Qed.
Lemma lcs_skipn x y : skipn (length x - lcs x y) x = skipn (length y - lcs x y) y.
Proof.
  unfold lcs. set (k := lcp (rev x) (rev y)).
  pose proof (lcp_firstn (rev x) (rev y)) as H. fold k in H.
  pose proof (firstn_rev k x) as Hx.
  pose proof (firstn_rev k y) as Hy.
  rewrite Hx, Hy in H. apply (f_equal (@rev _)) in H. now rewrite !rev_involutive in H.
Qed.
Lemma spatch_at_c n off basis d :
  spatch_at off basis (repeat "c"%char n ++ "l"%char :: d) = Some (d ++ skipn (n + off) basis).
Proof.
  revert off. induction n as [|n IH]; intros off; cbn; [reflexivity|].
  rewrite IH. now rewrite Nat.add_succ_r.
Qed.
Lemma spatch_sdelta basis new : spatch basis (sdelta basis new) = Some new.
Proof.
  unfold spatch, sdelta. rewrite spatch_at_c, Nat.add_0_r, lcs_skipn.
  now rewrite firstn_skipn.
Qed.

Definition idhash {attr} (_ : attr) (x : bytes) : option bytes := Some x.

(** A non-trivial history: created, changed, unchanged, turned into a directory,
    failed update, deleted, and created again *)
Definition ex_hist : hist Z :=
  [ (10, Reg (bs "one") 1, OOk); (20, Reg (bs "twone") 2, OOk); (30, Reg (bs "twone") 2, OOk);
    (40, Dir 3, OOk); (50, Reg (bs "x") 4, OPatchFail); (60, Reg (bs "y") 5, OOk);
    (65, Spec (bs "fifo") 6, OSpecialFail 9); (70, Absent, OOk); (80, Reg (bs "z") 7, OOk) ].

Example ex_hist_ok : times_increase ex_hist /\ no_late_error ex_hist /\ changes_show Z.eqb ex_hist.
Proof.
  split; [|split].
  - unfold times_increase, ex_hist. repeat (constructor; [|repeat constructor; cbn; lia]). constructor.
  - unfold no_late_error, ex_hist. repeat constructor.
  - intros x y c a c' a' Hx Hy. cbn in Hx, Hy.
    repeat (destruct Hx as [<-|Hx]); try destruct Hx;
    repeat (destruct Hy as [<-|Hy]); try destruct Hy;
    cbn; intros [= <- <-] [= <- <-]; auto; try discriminate.
Qed.

(** the conditions on librsync and SHA-1 are met, also by a hash with collisions
    elsewhere *)
(** (and not known for attributes 7) *)
Definition cuthash (a : Z) (x : bytes) : option bytes := if a =? 7 then None else Some (firstn 2 x).
Example ex_hist_conditions : librsync_works (occurs ex_hist) sdelta spatch /\
  no_collision (occurs ex_hist) (@idhash Z) /\ no_collision (occurs ex_hist) cuthash /\
  cuthash 1 (bs "one") = cuthash 1 (bs "on").
Proof.
  split; [intros ? ? _ _; apply spatch_sdelta|]. split; [intros ? ? ? ? ? _ _ [= <-] [= <-]; reflexivity|]. split; [|reflexivity].
  intros ai bi x y h0 Ox Oy Ex Ey. assert (E : firstn 2 x = firstn 2 y) by (unfold cuthash in *; destruct (ai =? 7), (bi =? 7); congruence). clear Ex Ey. revert Ox Oy E.
  intros [->|(u & a & Hu & Eu)] [->|(w & b & Hw & Ew)]; [reflexivity|..].
  - cbn in Hw. repeat (destruct Hw as [<-|Hw]); try destruct Hw; inversion Ew; subst; discriminate.
  - cbn in Hu. repeat (destruct Hu as [<-|Hu]); try destruct Hu; inversion Eu; subst; discriminate.
  - cbn in Hu, Hw. repeat (destruct Hu as [<-|Hu]); try destruct Hu; inversion Eu; subst;
    repeat (destruct Hw as [<-|Hw]); try destruct Hw; inversion Ew; subst; intros; (reflexivity || discriminate).
Qed.

Example ex_hist_restores :
  let repo := sessions sdelta idhash Z.eqb ex_hist empty_ps in
  map (fun t => restore spatch t repo) [10; 20; 30; 40; 50; 60; 65; 70; 80] =
  [ROk (Reg (bs "one") 1); ROk (Reg (bs "twone") 2); ROk (Reg (bs "twone") 2); ROk (Dir 3);
   ROk (Dir 3); ROk (Reg (bs "y") 5); ROk (Spec (bs "fifo") 6); ROk Absent; ROk (Reg (bs "z") 7)].
Proof. vm_compute. reflexivity. Qed.

Example ex_removal :
  let repo := sessions sdelta idhash Z.eqb ex_hist empty_ps in
  get_removal_time (Some 25) true [10; 30; 20; 40] = RemBefore 21 /\
  map (fun t => restore spatch t (remove_older 21 repo)) [20; 30; 60] =
  [RNoMeta; ROk (Reg (bs "twone") 2); ROk (Reg (bs "y") 5)].
Proof. vm_compute. split; reflexivity. Qed.

(** ** What does not hold *)

(** If the rename of the new file fails with an error which is caught and logged
    (e.g. EBUSY, EACCES), the increment of type diff stays, although the mirror
    file was not replaced: the previous session can't be restored any more. *)
Theorem C01_failed_rename_refuted :
  exists (h : hist Z),
    times_increase h /\ changes_show Z.eqb h /\
    (forall x, In x h -> h_out x = OOk \/ h_out x = ORenameFail) /\
    In (1, Reg (bs "bc") 1, OOk) h /\
    restore spatch 1 (sessions sdelta idhash Z.eqb h empty_ps) = ROk (Reg (bs "c") 1).
Proof.
  exists [(1, Reg (bs "bc") 1, OOk); (2, Reg (bs "abc") 2, ORenameFail)].
  split; [|split; [|split; [|split]]].
  - unfold times_increase. repeat constructor; cbn; lia.
  - intros x y c a c' a' Hx Hy. cbn in Hx, Hy.
    repeat (destruct Hx as [<-|Hx]); try destruct Hx;
    repeat (destruct Hy as [<-|Hy]); try destruct Hy;
    cbn; intros [= <- <-] [= <- <-]; auto; try discriminate.
  - intros x [<-|[<-|[]]]; cbn; auto.
  - now left.
  - vm_compute. reflexivity.
Qed.

(** The same with an error caught while the diff increment is being written:
    the truncated file stays in place. *)
Theorem C01_failed_increment_refuted :
  exists (h : hist Z) part,
    times_increase h /\ changes_show Z.eqb h /\
    h = [(1, Reg (bs "bc") 1, OOk); (2, Reg (bs "abc") 2, OIncFail (Some (IDiff part)))] /\
    (exists rest, sdelta (bs "abc") (bs "bc") = part ++ rest) /\
    restore spatch 1 (sessions sdelta idhash Z.eqb h empty_ps) = ROk (Reg [] 1).
Proof.
  eexists. exists []. split; [|split; [|split; [reflexivity|split]]].
  - unfold times_increase. repeat constructor; cbn; lia.
  - intros x y c a c' a' Hx Hy. cbn in Hx, Hy.
    repeat (destruct Hx as [<-|Hx]); try destruct Hx;
    repeat (destruct Hy as [<-|Hy]); try destruct Hy;
    cbn; intros [= <- <-] [= <- <-]; auto; try discriminate.
  - eexists. reflexivity.
  - vm_compute. reflexivity.
Qed.

(** Sessions without any change leave no increment of the root directory, so
    they aren't counted: two sessions are removed without --force. *)
Theorem C05_unchanged_session_not_counted_refuted :
  exists (h : hist Z) rt,
    times_increase h /\ no_late_error h /\ changes_show Z.eqb h /\
    let root := sessions sdelta idhash Z.eqb h empty_ps in
    get_removal_time (Some 3) false (map fst (incs root)) = RemBefore rt /\
    (restore spatch 1 root = ROk (Dir 7) /\ restore spatch 2 root = ROk (Dir 7)) /\
    (restore spatch 1 (remove_older rt root) = RNoMeta /\
     restore spatch 2 (remove_older rt root) = RNoMeta).
Proof.
  exists [(1, Dir 7, OOk); (2, Dir 7, OOk); (3, Dir 8, OOk)], 3.
  split; [|split; [|split]].
  - unfold times_increase. repeat constructor; cbn; lia.
  - repeat constructor.
  - intros x y c a c' a' Hx Hy. cbn in Hx, Hy.
    repeat (destruct Hx as [<-|Hx]); try destruct Hx; discriminate.
  - vm_compute. repeat split.
Qed.

Print Assumptions C01_every_session_restorable.
Print Assumptions C01_failed_update_keeps_previous.
Print Assumptions C01_failed_rename_refuted.
Print Assumptions C01_failed_increment_refuted.
Print Assumptions C04_removal_preserves_retained.
Print Assumptions C04_only_older_deleted.
Print Assumptions C05_without_force_exactly_one.
Print Assumptions C05_removal_time.
Print Assumptions C05_nothing_to_remove.
Print Assumptions C05_unchanged_session_not_counted_refuted.
Print Assumptions C34_restore_time.
Print Assumptions C34_candidate_times.
Print Assumptions C34_restore_as_of.
Print Assumptions C04_remove_older_than_end_to_end.
