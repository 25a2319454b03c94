(** * Lemmas about power failures: sessions *)
From Coq Require Import List NArith Bool Ascii Arith Lia.
From Verif Require Import Base M_Power S_Power L_Power.
Import List ListNotations.

Local Notation rp := (regress_one true true).
Section P.
Variables (safe : bool) (now : N).
Notation run1 := (run1 safe now). Notation run := (run safe now). Notation act := (act safe now). Notation acts := (acts safe now).

Lemma on_disk_settled f g : on_disk f -> settled f g -> wf g -> on_disk g.
Proof.
  intros (O1 & O2 & O3 & O4) (A1 & A2 & A3 & A4) (W1 & W2 & W3 & W4).
  assert (C : forall A (c c' : cell A), certain c -> cle c c' -> wf_cell c' -> certain c').
  { intros A c c' H [E K] Wc x. split; [intros Hx; rewrite E; now apply H, K|intros ->; exact Wc]. }
  split; [intros n; eapply C; eauto|]. split; [intros n; eapply C; eauto|]. split; [intros n; eapply C; eauto|].
  intros n i H. apply (W4 n). rewrite <- H. apply W1.
Qed.
Lemma plost_on_disk f f' : wf f -> plost f f' -> on_disk f'.
Proof.
  intros (_ & _ & _ & W4) (L1 & L2 & L3 & L4). split; [intros n; exact (proj2 (L1 n))|]. split; [intros n; exact (proj2 (L2 n))|]. split; [intros n; exact (proj2 (L3 n))|].
  intros n i H. rewrite L4. apply (W4 n). rewrite <- H. apply L1.
Qed.
Lemma plost_view f f' n : on_disk f -> plost f f' -> view f' n = view f n.
Proof.
  intros (O1 & O2 & O3 & _) (L1 & L2 & L3 & _). unfold view. rewrite (proj1 (O1 n _) (proj1 (L1 n))). destruct (cur (ent f n)) as [i|]; [|reflexivity].
  now rewrite (proj1 (O2 i _) (proj1 (L2 i))), (proj1 (O3 i _) (proj1 (L3 i))).
Qed.
Lemma settled_view f g n : settled f g -> view g n = view f n.
Proof. intros (A1 & A2 & A3 & _). unfold view. rewrite (proj1 (A1 n)). destruct (cur (ent f n)) as [i|]; [|reflexivity]. now rewrite (proj1 (A2 i)), (proj1 (A3 i)). Qed.
Lemma recoverable_views r v f g : view g NMirror = view f NMirror -> view g NInc = view f NInc -> recoverable r v f -> recoverable r v g.
Proof. intros E1 E2. unfold recoverable. rewrite E1, E2. auto. Qed.
Lemma holds_recoverable r v f : holds v f -> recoverable r v f.
Proof. destruct v; intros H; cbn; auto. left. rewrite H. eauto. Qed.
Lemma holds_regular v f : holds v f -> regular v -> mirror_regular f.
Proof. intros H (b & a & ->). exists b, a. exact H. Qed.
Lemma holds_intact v f : on_disk f -> holds v f -> intact v f.
Proof.
  intros (O1 & O2 & O3 & O4) H. unfold holds, view in H. destruct (cur (ent f NMirror)) as [i|] eqn:E; destruct v; try discriminate H; cbn.
  - injection H as H1 H2. exists i. repeat split; [eapply O4; exact E| | |]; intros x Hx; [apply O1 in Hx|apply O2 in Hx|apply O3 in Hx]; congruence.
  - injection H as H1 H2. exists i. repeat split; [eapply O4; exact E| | |]; intros x Hx; [apply O1 in Hx|apply O2 in Hx|apply O3 in Hx]; congruence.
  - intros x Hx. apply O1 in Hx. congruence.
Qed.

(** ** Whose operations these are *)
Lemma quiet_file_ops q p o n : q <> p -> Forall (quiet q) (file_ops true true p o n).
Proof.
  intros H. unfold file_ops. destruct (unchanged o n).
  - apply Forall_app. split; [destruct n; repeat constructor; exact H|repeat constructor; exact H].
  - repeat (apply Forall_app; split); [destruct n; repeat constructor; exact H|destruct o; [| destruct n |]; repeat constructor; exact H|destruct n; repeat constructor; exact H].
Qed.
Lemma quiet_item q i : q <> item_path i -> Forall (quiet q) (item_ops true true i).
Proof.
  destruct i as [p o n|p h|p h]; cbn; intros H; [now apply quiet_file_ops| |]; unfold dir_ops; destruct h; repeat constructor; exact H.
Qed.
Lemma quiet_items q l : ~ In q (map item_path l) -> Forall (quiet q) (flat_map (item_ops true true) l).
Proof.
  induction l as [|i l IH]; intros H; [constructor|]. cbn in *. apply Forall_app. split; [apply quiet_item; intuition|apply IH; intuition].
Qed.
Lemma quiet_rp q r f p v : q <> p -> Forall (quiet q) (rp r f p v).
Proof.
  intros H. unfold regress_one. cbv zeta. apply Forall_app. split; [|destruct (if r then view f NInc else None); repeat constructor; exact H].
  destruct v as [|b a|k a].
  - destruct (view f NMirror); repeat constructor; exact H.
  - destruct (view f NMirror) as [[[d|d|d1 d2| |kk] a']|]; [destruct (a' =? a)%N; [constructor|]; destruct (beq d b)| | | | |]; repeat constructor; exact H.
  - destruct (view f NMirror) as [[[d|d|d1 d2| |kk] a']|]; [| | | |destruct ((kk =? k)%N && (a' =? a)%N)|]; repeat constructor; exact H.
Qed.

(** ** Directories of increments stay *)
Definition keeps (o : op) : Prop := match o with Unlink _ NIncDir => False | _ => True end.
Definition dcert (f : pstate) : Prop := forall x, poss (ent f NIncDir) x -> x <> None.
Lemma dcert_act p f o : keeps o -> wf f -> dcert f -> dcert (act p f o).
Proof.
  intros K W D.
  assert (QD : forall o, quiet p o -> dcert (act p f o)).
  { intros o' Q x Hx. destruct (quiet_act safe now p o' f Q W) as ((A1 & _) & _). apply D. now apply A1. }
  destruct o as [q n c|q n a|q n|q|q n|q|[d|d|]| | | |]; try (apply QD; exact I); cbn; (destruct (path_eqb p q); [|exact D]).
  - intros x. cbn. destruct n; cbn; try apply D. intros [H|H]; [now apply D|congruence].
  - unfold on_file. destruct (cur (ent f n)); exact D.
  - unfold on_file. destruct (cur (ent f n)); exact D.
  - unfold rename. destruct (cur (ent f NTemp)); [|exact D]. intros x. unfold flush. destruct safe; cbn; apply D.
  - intros x. cbn. destruct n; cbn; try apply D. contradiction.
  - intros x. cbn. intros [H|H]; [now apply D|congruence].
Qed.
Lemma dcert_acts p l : forall f, Forall keeps l -> wf f -> dcert f -> dcert (acts p f l).
Proof.
  induction l as [|o l IH]; intros f H W D; [exact D|]. inversion H; subst. change (acts p f (o :: l)) with (acts p (act p f o) l).
  apply IH; auto; [now apply wf_act|now apply dcert_act].
Qed.
Lemma keeps_file_ops p o n : Forall keeps (file_ops true true p o n).
Proof.
  unfold file_ops. destruct (unchanged o n).
  - apply Forall_app. split; [destruct n; repeat constructor|repeat constructor].
  - repeat (apply Forall_app; split); [destruct n; repeat constructor|destruct o; [| destruct n |]; repeat constructor|destruct n; repeat constructor].
Qed.
Lemma keeps_items l : Forall keeps (flat_map (item_ops true true) l).
Proof.
  induction l as [|i l IH]; [constructor|]. cbn. apply Forall_app. split; [|exact IH].
  destruct i as [p o n|p h|p h]; cbn; [apply keeps_file_ops| |]; unfold dir_ops; destruct h; repeat constructor.
Qed.
Lemma dcert_made p f h : wf f -> (h = true -> dcert f) -> dcert (acts p f (item_ops true true (Directory p h))).
Proof.
  intros W D. destruct h.
  - apply dcert_acts; auto. repeat constructor.
  - cbn [item_ops dir_ops app fsync_with_dir f_file f_dir andb]. intros x. unfold acts, L_Power.acts. cbn [fold_left L_Power.act]. rewrite !path_eqb_refl, opath_eqb_refl. unfold on_file. cbn. congruence.
Qed.
(** nothing touches the directory of increments at all *)
Definition keeps2 (o : op) : Prop := match o with Unlink _ NIncDir | Create _ NIncDir _ | Mkdir _ => False | _ => True end.
Lemma keeps2_act p f o : keeps2 o -> wf f -> cle (ent f NIncDir) (ent (act p f o) NIncDir).
Proof.
  intros K W.
  destruct o as [q n c|q n a|q n|q|q n|q|[d|d|]| | | |]; try contradiction; cbn; try apply cle_refl.
  - destruct (path_eqb p q); [|apply cle_refl]. destruct n; try contradiction; apply cle_refl.
  - destruct (path_eqb p q); [|apply cle_refl]. unfold on_file. destruct (cur (ent f n)); apply cle_refl.
  - destruct (path_eqb p q); [|apply cle_refl]. unfold on_file. destruct (cur (ent f n)); apply cle_refl.
  - destruct (path_eqb p q); [|apply cle_refl]. unfold rename. destruct (cur (ent f NTemp)); [|apply cle_refl]. unfold flush. destruct safe; apply cle_refl.
  - destruct (path_eqb p q); [|apply cle_refl]. destruct n; try contradiction; apply cle_refl.
  - destruct (opath_eqb (parent p) d); apply cle_refl.
  - destruct (opath_eqb (parent p) d); [|apply cle_refl]. cbn. apply cle_settle, W.
  - apply cle_settle, W.
Qed.
Lemma keeps2_acts p l : forall f, Forall keeps2 l -> wf f -> cle (ent f NIncDir) (ent (acts p f l) NIncDir).
Proof.
  induction l as [|o l IH]; intros f H W; [apply cle_refl|]. inversion H; subst. change (acts p f (o :: l)) with (acts p (act p f o) l).
  destruct (keeps2_act p f o H2 W) as [E1 K1]. destruct (IH (act p f o) H3) as [E2 K2]; [now apply wf_act|]. split; [congruence|auto].
Qed.
Lemma keeps2_rp r f p v : Forall keeps2 (rp r f p v).
Proof.
  unfold regress_one. cbv zeta. apply Forall_app. split; [|destruct (if r then view f NInc else None); repeat constructor].
  destruct v as [|b a|k a].
  - destruct (view f NMirror); repeat constructor.
  - destruct (view f NMirror) as [[[d|d|d1 d2| |kk] a']|]; [destruct (a' =? a)%N; [constructor|]; destruct (beq d b)| | | | |]; repeat constructor.
  - destruct (view f NMirror) as [[[d|d|d1 d2| |kk] a']|]; [| | | |destruct ((kk =? k)%N && (a' =? a)%N)|]; repeat constructor.
Qed.
Definition allwf (s : st) : Prop := forall p, wf (files s p).
Lemma allwf_run l s : allwf s -> allwf (run s l).
Proof. intros H p. rewrite files_run. apply wf_acts, H. Qed.
Lemma reach_run l s p : Forall keeps2 l -> allwf s -> reach (run s l) p = reach s p.
Proof.
  intros K W. unfold reach. induction (ancestors p) as [|q r IH]; [reflexivity|]. cbn. rewrite IH. f_equal. rewrite files_run.
  now rewrite (proj1 (keeps2_acts q l (files s q) K (W q))).
Qed.
Lemma reach_lost l s s' p : Forall keeps2 l -> (forall q, on_disk (files s q)) -> power_failure (run s l) s' -> reach s' p = reach s p.
Proof.
  intros K OD (_ & _ & L). unfold reach. induction (ancestors p) as [|q r IH]; [reflexivity|]. cbn. rewrite IH. f_equal.
  destruct (L q) as (L1 & _). pose proof (proj1 (L1 NIncDir)) as X. rewrite files_run in X.
  apply (proj2 (keeps2_acts q l (files s q) K (on_disk_wf _ (OD q)))) in X. apply (proj1 (OD q)) in X. now rewrite X.
Qed.

(** ** The session *)
Notation session := (session true true).
Notation file_ops := (file_ops true true). Notation item_ops := (item_ops true true).
Lemma files_in items p o n : In (p, o, n) (files_of items) -> In (File p o n) items.
Proof.
  unfold files_of. intros H. apply in_flat_map in H. destruct H as (i & Hi & H). destruct i; cbn in H; try contradiction. destruct H as [[= -> -> ->]|[]]. exact Hi.
Qed.
Lemma session_split l1 p o n l2 : session (l1 ++ File p o n :: l2) =
  (TouchNew :: FsyncDir DData :: flat_map item_ops l1) ++ file_ops p o n ++ (flat_map item_ops l2 ++ [Sync; RemoveOld]).
Proof. unfold M_Power.session. cbn [f_dir andb app]. rewrite flat_map_app. cbn [flat_map]. cbn. rewrite <- !app_assoc. reflexivity. Qed.

Lemma session_file s items p o n k s' :
  before s items -> in_order s items -> In (p, o, n) (files_of items) -> told_apart now o n ->
  (safe = true \/ ~ (regular o /\ regular n)) ->
  power_failure (run s (firstn k (session items))) s' ->
  recoverable (reach s' p) o (files s' p) /\ (regular o -> regular n -> mirror_regular (files s' p)).
Proof.
  intros (_ & _ & _ & _ & OD & HO & HD) (ND & ORD) Hin TA HS (_ & _ & L).
  pose proof (HO p o n Hin) as Hh. pose proof (holds_intact _ _ (OD p) Hh) as HI. pose proof (on_disk_wf _ (OD p)) as W.
  destruct (in_split _ _ (files_in _ _ _ _ Hin)) as (l1 & l2 & ->). specialize (ORD l1 p o n l2 eq_refl).
  rewrite session_split in L. set (A := TouchNew :: FsyncDir DData :: flat_map item_ops l1) in *. set (C := flat_map item_ops l2 ++ [Sync; RemoveOld]) in *.
  assert (NP : ~ In p (map item_path l1) /\ ~ In p (map item_path l2)).
  { rewrite map_app in ND. cbn in ND. pose proof (NoDup_remove_2 _ _ _ ND) as X. rewrite in_app_iff in X. tauto. }
  destruct NP as [NP1 NP2].
  assert (QA : Forall (quiet p) A) by (constructor; [exact I|constructor; [exact I|now apply quiet_items]]).
  assert (QC : Forall (quiet p) C) by (apply Forall_app; split; [now apply quiet_items|repeat constructor]).
  pose proof (L p) as Lp. rewrite files_run in Lp. rewrite firstn_app, acts_app in Lp.
  destruct (le_lt_dec k (length A)) as [Hk|Hk].
  - replace (k - length A) with 0 in Lp by lia. cbn [firstn acts fold_left L_Power.acts] in Lp.
    destruct (quiet_acts safe now p (firstn k A) (files s p) (Forall_firstn _ _ _ QA) W) as [S1 W1].
    pose proof (intact_lost _ _ _ (intact_settled _ _ _ S1 HI) Lp) as Hf. split; [now apply holds_recoverable|]. intros Ro _. now apply (holds_regular o).
  - rewrite (firstn_all2 A) in Lp by lia. set (j := k - length A) in *.
    assert (RE : reach s' p = true).
    { unfold reach. apply forallb_forall. intros q Hq.
      assert (DA : dcert (acts q (files s q) A)).
      { assert (D0 : has_inc_dir s q -> dcert (files s q)) by (intros Hd x Hx; apply (proj1 (OD q)) in Hx; subst x; exact Hd).
        assert (KA : Forall keeps A) by (constructor; [exact I|constructor; [exact I|apply keeps_items]]).
        destruct (ORD q Hq) as [Hd|(h & Hd)]; [apply dcert_acts; auto using on_disk_wf|].
        assert (Dh : h = true -> dcert (files s q)) by (intros Eh; apply D0; apply (HD q h); [left; apply in_or_app; auto|exact Eh]).
        destruct h; [apply dcert_acts; auto using on_disk_wf|].
        destruct (in_split _ _ Hd) as (m1 & m2 & ->). unfold A. rewrite flat_map_app. cbn [flat_map].
        change (TouchNew :: FsyncDir DData :: flat_map item_ops m1 ++ item_ops (Directory q false) ++ flat_map item_ops m2)
          with ((TouchNew :: FsyncDir DData :: flat_map item_ops m1) ++ item_ops (Directory q false) ++ flat_map item_ops m2).
        rewrite !acts_app. apply dcert_acts; [apply keeps_items|apply wf_acts, wf_acts, on_disk_wf, OD|]. apply dcert_made; [apply wf_acts, on_disk_wf, OD|discriminate]. }
      pose proof (L q) as Lq. rewrite files_run, firstn_app, acts_app, (firstn_all2 A) in Lq by lia. fold j in Lq.
      destruct Lq as (L1 & _). pose proof (proj1 (L1 NIncDir)) as X. apply (dcert_acts q (firstn j (file_ops p o n ++ C)) _) in X.
      - now destruct (cur (ent (files s' q) NIncDir)).
      - apply Forall_firstn. apply Forall_app. split; [apply keeps_file_ops|]. apply Forall_app. split; [apply keeps_items|repeat constructor].
      - apply wf_acts, on_disk_wf, OD.
      - exact DA. }
    rewrite RE.
    destruct (quiet_acts safe now p A (files s p) QA W) as [SA WA]. set (f1 := acts p (files s p) A) in *.
    pose proof (intact_settled _ _ _ SA HI) as I1.
    rewrite firstn_app, acts_app in Lp.
    destruct (quiet_acts safe now p (firstn (j - length (file_ops p o n)) C) (acts p f1 (firstn j (file_ops p o n)))) as [SC _]; [apply Forall_firstn, QC|apply wf_acts, WA|].
    pose proof (plost_settled _ _ _ SC Lp) as Lp'.
    destruct o as [|b a|kk a]; [split; [exact I|intros (? & ? & X); discriminate X]| |split; [exact I|intros (? & ? & X); discriminate X]].
    destruct (own_session safe now p b a n f1 j (files s' p) WA I1 TA) as [R1 R2]; [|exact Lp'|].
    { destruct HS as [HS|HS]; [left; exact HS|right]. intros Rn. apply HS. split; [repeat eexists|exact Rn]. }
    split; [exact R1|]. intros _. exact R2.
Qed.
Lemma session_other s items p v k s' :
  before s items -> ~ In p (map item_path items) -> holds v (files s p) ->
  power_failure (run s (firstn k (session items))) s' -> holds v (files s' p).
Proof.
  intros (_ & _ & _ & _ & OD & _) NI Hh (_ & _ & L). specialize (L p). rewrite files_run in L.
  destruct (quiet_acts safe now p (firstn k (session items)) (files s p)) as [S1 _]; [|apply on_disk_wf, OD|].
  - apply Forall_firstn. unfold M_Power.session. cbn [f_dir andb app]. constructor; [exact I|]. constructor; [exact I|]. apply Forall_app. split; [now apply quiet_items|repeat constructor].
  - eapply intact_lost; [|exact L]. eapply intact_settled; [exact S1|]. now apply holds_intact.
Qed.
Lemma session_done s items p o n s' :
  before s items -> in_order s items -> In (p, o, n) (files_of items) -> o <> n ->
  power_failure (run s (session items)) s' -> holds n (files s' p).
Proof.
  intros (_ & _ & _ & _ & OD & HO & HD) (ND & _) Hin Hon (_ & _ & L).
  pose proof (HO p o n Hin) as Hh. pose proof (holds_intact _ _ (OD p) Hh) as HI. pose proof (on_disk_wf _ (OD p)) as W.
  destruct (in_split _ _ (files_in _ _ _ _ Hin)) as (l1 & l2 & ->).
  assert (NP : ~ In p (map item_path l1) /\ ~ In p (map item_path l2)).
  { rewrite map_app in ND. cbn in ND. pose proof (NoDup_remove_2 _ _ _ ND) as X. rewrite in_app_iff in X. tauto. }
  destruct NP as [NP1 NP2].
  specialize (L p). rewrite files_run, session_split in L. set (A := TouchNew :: FsyncDir DData :: flat_map item_ops l1) in *.
  assert (QA : Forall (quiet p) A) by (constructor; [exact I|constructor; [exact I|now apply quiet_items]]).
  rewrite !acts_app in L.
  destruct (quiet_acts safe now p A (files s p) QA W) as [SA WA]. set (f1 := acts p (files s p) A) in *.
  pose proof (own_new safe now p o n f1 WA (intact_settled _ _ _ SA HI) Hon) as H2. set (f2 := acts p f1 (file_ops p o n)) in *.
  assert (W2 : wf f2) by (apply wf_acts, WA).
  destruct (quiet_acts safe now p (flat_map item_ops l2) f2 (quiet_items _ _ NP2) W2) as [S3 W3]. set (f3 := acts p f2 (flat_map item_ops l2)) in *.
  pose proof (holds_settled _ _ _ S3 H2) as H3. change (acts p f3 [Sync; RemoveOld]) with (settle_all f3) in L.
  assert (OD3 : on_disk (settle_all f3)).
  { split; [intros m x; reflexivity|]. split; [intros m x; reflexivity|]. split; [intros m x; reflexivity|]. intros m i E. apply (proj2 (proj2 (proj2 W3)) m). cbn in E. rewrite <- E. apply W3. }
  unfold holds. rewrite (plost_view _ _ _ OD3 L). rewrite (settled_view f3); [exact H3|]. now apply settled_all.
Qed.

(** ** Markers *)
Definition unmarked (o : op) : Prop := match o with TouchNew | RemoveOld | RemoveNew => False | _ => True end.
Lemma markers_run l : forall s, Forall unmarked l -> certain (old_marker s) -> certain (new_marker s) ->
  certain (old_marker (run s l)) /\ certain (new_marker (run s l)) /\ cur (old_marker (run s l)) = cur (old_marker s) /\ cur (new_marker (run s l)) = cur (new_marker s).
Proof.
  induction l as [|o l IH]; intros s H C1 C2; [auto|]. inversion H; subst. change (run s (o :: l)) with (run (run1 s o) l).
  assert (X : certain (old_marker (run1 s o)) /\ certain (new_marker (run1 s o)) /\ cur (old_marker (run1 s o)) = cur (old_marker s) /\ cur (new_marker (run1 s o)) = cur (new_marker s)).
  { destruct o as [q n c|q n a|q n|q|q n|q|[d|d|]| | | |]; try contradiction; cbn; auto; repeat split; auto; cbn; intros ->; reflexivity. }
  destruct X as (X1 & X2 & X3 & X4). destruct (IH (run1 s o) H3 X1 X2) as (I1 & I2 & I3 & I4). repeat split; try apply I1; try apply I2; congruence.
Qed.
Lemma unmarked_items l : Forall unmarked (flat_map item_ops l).
Proof.
  induction l as [|i l IH]; [constructor|]. cbn. apply Forall_app. split; [|exact IH].
  destruct i as [p o n|p h|p h]; cbn; [|unfold dir_ops; destruct h; repeat constructor|unfold dir_ops; destruct h; repeat constructor].
  unfold M_Power.file_ops. destruct (unchanged o n).
  - apply Forall_app. split; [destruct n; repeat constructor|repeat constructor].
  - repeat (apply Forall_app; split); [destruct n; repeat constructor|destruct o; [| destruct n |]; repeat constructor|destruct n; repeat constructor].
Qed.
Lemma unmarked_rp r f p v : Forall unmarked (rp r f p v).
Proof.
  unfold regress_one. cbv zeta. apply Forall_app. split; [|destruct (if r then view f NInc else None); repeat constructor].
  destruct v as [|b a|k a].
  - destruct (view f NMirror); repeat constructor.
  - destruct (view f NMirror) as [[[d|d|d1 d2| |kk] a']|]; [destruct (a' =? a)%N; [constructor|]; destruct (beq d b)| | | | |]; repeat constructor.
  - destruct (view f NMirror) as [[[d|d|d1 d2| |kk] a']|]; [| | | |destruct ((kk =? k)%N && (a' =? a)%N)|]; repeat constructor.
Qed.
(** which markers there are, and how far the session was *)
Lemma session_markers s items k s' :
  before s items -> power_failure (run s (firstn k (session items))) s' ->
  (k <= 1 /\ cur (old_marker s') = true) \/
  (cur (old_marker s') = true /\ cur (new_marker s') = true) \/
  (firstn k (session items) = session items /\ cur (new_marker s') = true).
Proof.
  intros (B1 & B2 & B3 & B4 & _) (L1 & L2 & _).
  destruct k as [|[|k]].
  - left. split; [lia|]. cbn in L1. rewrite <- B1. apply B3. apply L1.
  - left. split; [lia|]. cbn in L1. rewrite <- B1. apply B3. apply L1.
  - right. set (M := flat_map item_ops items ++ [Sync]).
    assert (E : session items = TouchNew :: FsyncDir DData :: M ++ [RemoveOld]) by (unfold M_Power.session, M; cbn; rewrite <- app_assoc; reflexivity).
    rewrite E in *. cbn [firstn] in *.
    assert (UM : Forall unmarked M) by (apply Forall_app; split; [apply unmarked_items|repeat constructor]).
    set (s2 := run s [TouchNew; FsyncDir DData]) in *.
    assert (C1 : certain (old_marker s2)) by (intros x; cbn; tauto). assert (C2 : certain (new_marker s2)) by (intros x; cbn; tauto).
    destruct (firstn_last M RemoveOld k) as [F|F]; rewrite F in *.
    + left. destruct (markers_run (firstn k M) s2 (Forall_firstn _ _ _ UM) C1 C2) as (X1 & X2 & X3 & X4).
      change (run s (TouchNew :: FsyncDir DData :: firstn k M)) with (run s2 (firstn k M)) in *.
      split; [rewrite (proj1 (X1 _) (proj1 L1)), X3; exact B1|rewrite (proj1 (X2 _) (proj1 L2)), X4; reflexivity].
    + right. split; [reflexivity|]. change (run s (TouchNew :: FsyncDir DData :: M ++ [RemoveOld])) with (run s2 (M ++ [RemoveOld])) in L2.
      rewrite run_app in L2. destruct (markers_run M s2 UM C1 C2) as (X1 & X2 & X3 & X4). cbn [M_Power.run fold_left M_Power.run1 new_marker] in L2.
      change (new_marker (fold_left (M_Power.run1 safe now) M s2)) with (new_marker (run s2 M)) in L2.
      rewrite (proj1 (X2 _) (proj1 L2)), X4. reflexivity.
Qed.
Lemma before_lost s items k s' : before s items -> power_failure (run s (firstn k (session items))) s' -> (forall q, on_disk (files s' q)) /\ certain (old_marker s') /\ certain (new_marker s').
Proof.
  intros (_ & _ & _ & _ & OD & _) (L1 & L2 & L). split; [|split; [exact (proj2 L1)|exact (proj2 L2)]].
  intros q. eapply plost_on_disk; [|apply L]. rewrite files_run. apply wf_acts, on_disk_wf, OD.
Qed.
End P.
