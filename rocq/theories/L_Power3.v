(** * Lemmas about power failures: going back *)
From Coq Require Import List NArith Bool Ascii Arith Lia.
From Verif Require Import Base M_Power S_Power L_Power L_Power2.
Import List ListNotations.

Local Notation rp := (regress_one true true).
Section P.
Variables (safe : bool) (now : N).
Notation run1 := (run1 safe now). Notation run := (run safe now). Notation act := (act safe now). Notation acts := (acts safe now).
Notation regress_files := (regress_files safe now true true). Notation regress := (regress safe now true true).

Lemma regress_files_forall (P : op -> Prop) : (forall r f p v, Forall P (rp r f p v)) -> forall l s, Forall P (regress_files s l).
Proof.
  intros H. induction l as [|[p v] l IH]; intros s; [constructor|]. cbn [M_Power.regress_files]. apply Forall_app. split; [rewrite rp_ok; apply H|apply IH].
Qed.
Lemma regress_files_quiet q : forall l s, ~ In q (map fst l) -> Forall (quiet q) (regress_files s l).
Proof.
  induction l as [|[p v] l IH]; intros s H; [constructor|]. cbn [M_Power.regress_files]. cbn in H. apply Forall_app. split; [rewrite rp_ok; apply quiet_rp; intuition|apply IH; intuition].
Qed.

(** completed *)
Lemma regress_files_done : forall l s, NoDup (map fst l) -> allwf s ->
  (forall p v, In (p, v) l -> recoverable (reach s p) v (files s p)) ->
  forall p v, In (p, v) l -> holds v (files (run s (regress_files s l)) p).
Proof.
  induction l as [|[p0 v0] l IH]; intros s ND W R p v Hin; [contradiction|]. cbn [M_Power.regress_files]. rewrite run_app. cbn in ND. inversion ND; subst.
  set (o := regress_path true true s p0 v0) in *. assert (W1 : allwf (run s o)) by (now apply allwf_run).
  assert (K : Forall keeps2 o) by (unfold o; rewrite rp_ok; apply keeps2_rp).
  destruct Hin as [[= -> ->]|Hin].
  - rewrite files_run. eapply holds_settled; [apply quiet_acts; [now apply regress_files_quiet|apply W1]|].
    rewrite files_run. unfold o. rewrite rp_ok. apply rp_holds; [apply W|]. apply R. now left.
  - apply IH; auto. intros q w Hq. rewrite reach_run by assumption.
    assert (N : q <> p0) by (intros ->; apply H1; apply in_map_iff; exists (p0, w); auto).
    destruct (quiet_acts safe now q o (files s q)) as [S1 _]; [unfold o; rewrite rp_ok; now apply quiet_rp|apply W|].
    rewrite files_run. eapply recoverable_views; [apply settled_view, S1|apply settled_view, S1|]. apply R. now right.
Qed.
Lemma regress_done l s : NoDup (map fst l) -> allwf s ->
  (forall p v, In (p, v) l -> recoverable (reach s p) v (files s p)) ->
  forall p v, In (p, v) l -> holds v (files (run s (regress s l)) p).
Proof.
  intros ND W R p v Hin. unfold M_Power.regress. rewrite run_app, files_run. eapply holds_settled; [apply quiet_acts; [repeat constructor|]|].
  - apply allwf_run, W.
  - now apply regress_files_done.
Qed.
Lemma regress_done_markers l s : certain (old_marker s) -> certain (new_marker s) ->
  cur (old_marker (run s (regress s l))) = cur (old_marker s) /\ cur (new_marker (run s (regress s l))) = false.
Proof.
  intros C1 C2. unfold M_Power.regress. rewrite run_app. cbn.
  destruct (markers_run safe now (regress_files s l) s) as (X1 & X2 & X3 & X4); auto. apply regress_files_forall, unmarked_rp.
Qed.

(** interrupted *)
Lemma regress_files_prefix p v f' : forall l s k rest, NoDup (map fst l) -> allwf s -> on_disk (files s p) -> In (p, v) l ->
  recoverable (reach s p) v (files s p) -> (regular v -> mirror_regular (files s p)) -> Forall (quiet p) rest ->
  plost (acts p (files s p) (firstn k (regress_files s l ++ rest))) f' ->
  recoverable (reach s p) v f' /\ (regular v -> mirror_regular f').
Proof.
  induction l as [|[p0 v0] l IH]; intros s k rest ND W OD Hin R M Q L; [contradiction|].
  cbn [M_Power.regress_files] in L. cbn in ND. inversion ND; subst. set (o := regress_path true true s p0 v0) in *. rewrite <- app_assoc, firstn_app, acts_app in L.
  assert (W1 : allwf (run s o)) by (now apply allwf_run).
  assert (K : Forall keeps2 o) by (unfold o; rewrite rp_ok; apply keeps2_rp).
  destruct Hin as [[= -> ->]|Hin].
  - destruct (quiet_acts safe now p (firstn (k - length o) (regress_files (run s o) l ++ rest)) (acts p (files s p) (firstn k o))) as [S1 _].
    + apply Forall_firstn, Forall_app. split; [now apply regress_files_quiet|exact Q].
    + apply wf_acts, W.
    + pose proof (plost_settled _ _ _ S1 L) as L'. unfold o in L'. rewrite rp_ok in L'.
      destruct v as [|b a|kk a]; [split; [exact I|intros (? & ? & X); discriminate X]| |split; [exact I|intros (? & ? & X); discriminate X]].
      destruct (rp_prefix safe now (reach s p) p b a (files s p) k f' OD R) as [X1 X2]; [apply M; repeat eexists|exact L'|]. split; auto.
  - assert (N : p <> p0) by (intros ->; apply H1; apply in_map_iff; exists (p0, v); auto).
    assert (Qo : Forall (quiet p) o) by (unfold o; rewrite rp_ok; now apply quiet_rp).
    destruct (le_lt_dec k (length o)) as [Hk|Hk].
    + replace (k - length o) with 0 in L by lia. cbn [firstn L_Power.acts fold_left] in L.
      destruct (quiet_acts safe now p (firstn k o) (files s p)) as [S1 W2]; [now apply Forall_firstn|apply W|].
      assert (V : forall n, view f' n = view (files s p) n).
      { intros n. rewrite (plost_view _ _ n (on_disk_settled _ _ OD S1 W2) L). now apply settled_view. }
      split; [eapply recoverable_views; [apply V|apply V|exact R]|]. intros Hr. destruct (M Hr) as (d & a & E). exists d, a. now rewrite V.
    + rewrite (firstn_all2 o) in L by lia. rewrite <- files_run in L.
      destruct (quiet_acts safe now p o (files s p) Qo (W p)) as [S1 W2]. rewrite <- files_run in S1, W2.
      rewrite <- (reach_run safe now o s p K W). apply IH with (k := k - length o) (rest := rest); auto.
      * eapply on_disk_settled; eassumption.
      * rewrite reach_run by assumption. eapply recoverable_views; [apply settled_view, S1|apply settled_view, S1|exact R].
      * intros Hr. destruct (M Hr) as (d & a & E). exists d, a. now rewrite (settled_view _ _ _ S1).
Qed.

(** what stays true however often going back is interrupted *)
Definition going_back (l : list (path * version)) (s : st) : Prop :=
  (forall q, on_disk (files s q)) /\ certain (old_marker s) /\ certain (new_marker s) /\ cur (old_marker s) = true /\
  (forall p v, In (p, v) l -> recoverable (reach s p) v (files s p) /\ (regular v -> mirror_regular (files s p))) /\
  (cur (new_marker s) = false -> forall p v, In (p, v) l -> holds v (files s p)).
Lemma going_back_step l s k s1 : NoDup (map fst l) -> going_back l s -> cur (new_marker s) = true ->
  power_failure (run s (firstn k (regress s l))) s1 -> going_back l s1.
Proof.
  intros ND (OD & C1 & C2 & O & R & _) Hn PF. pose proof PF as (L1 & L2 & L).
  assert (W : allwf s) by (intros q; apply on_disk_wf, OD).
  set (M := regress_files s l ++ [Sync]).
  assert (E : regress s l = M ++ [RemoveNew]) by (unfold M_Power.regress, M; now rewrite <- app_assoc).
  assert (UM : Forall unmarked M) by (apply Forall_app; split; [apply regress_files_forall, unmarked_rp|repeat constructor]).
  assert (K2 : Forall keeps2 (firstn k (regress s l))).
  { apply Forall_firstn. rewrite E. apply Forall_app. split; [|repeat constructor]. apply Forall_app. split; [apply regress_files_forall, keeps2_rp|repeat constructor]. }
  assert (RR : forall p, reach s1 p = reach s p) by (intros p; eapply reach_lost; eassumption).
  assert (R1 : forall p v, In (p, v) l -> recoverable (reach s1 p) v (files s1 p) /\ (regular v -> mirror_regular (files s1 p))).
  { intros p v Hin. rewrite RR. destruct (R p v Hin) as [Rp Mp]. specialize (L p). rewrite files_run in L. unfold M_Power.regress in L.
    apply (regress_files_prefix p v (files s1 p) l s k [Sync; RemoveNew] ND W (OD p) Hin Rp Mp); [repeat constructor|exact L]. }
  assert (OD1 : forall q, on_disk (files s1 q)) by (intros q; eapply plost_on_disk; [|apply L]; apply allwf_run, W).
  assert (MK : cur (old_marker s1) = true /\ (cur (new_marker s1) = true \/ firstn k (regress s l) = regress s l)).
  { destruct (firstn_last M RemoveNew k) as [F|F]; rewrite <- E in F; rewrite F in L1, L2.
    - destruct (markers_run safe now (firstn k M) s (Forall_firstn _ _ _ UM) C1 C2) as (X1 & X2 & X3 & X4).
      split; [rewrite (proj1 (X1 _) (proj1 L1)), X3; exact O|left; rewrite (proj1 (X2 _) (proj1 L2)), X4; exact Hn].
    - split; [|right; exact F]. rewrite E, run_app in L1. destruct (markers_run safe now M s UM C1 C2) as (X1 & X2 & X3 & X4).
      cbn [M_Power.run fold_left M_Power.run1 old_marker] in L1. change (old_marker (fold_left (M_Power.run1 safe now) M s)) with (old_marker (run s M)) in L1.
      rewrite (proj1 (X1 _) (proj1 L1)), X3. exact O. }
  destruct MK as [MO MN].
  split; [exact OD1|]. split; [exact (proj2 L1)|]. split; [exact (proj2 L2)|]. split; [exact MO|]. split; [exact R1|].
  intros NF p v Hin. destruct MN as [MN|F]; [congruence|]. specialize (L p). rewrite F, files_run in L. unfold M_Power.regress in L. rewrite acts_app, <- files_run in L.
  assert (H : holds v (files (run s (regress_files s l)) p)) by (apply regress_files_done; auto; intros q w Hq; now apply R).
  set (f3 := files (run s (regress_files s l)) p) in *. assert (W3 : wf f3) by (apply allwf_run, W).
  change (plost (settle_all f3) (files s1 p)) in L.
  assert (OD3 : on_disk (settle_all f3)).
  { split; [intros m x; reflexivity|]. split; [intros m x; reflexivity|]. split; [intros m x; reflexivity|]. intros m i Ei. apply (proj2 (proj2 (proj2 W3)) m). cbn in Ei. rewrite <- Ei. apply W3. }
  unfold holds. rewrite (plost_view _ _ _ OD3 L). rewrite (settled_view f3); [exact H|]. now apply settled_all.
Qed.
Lemma going_back_always l s s' : NoDup (map fst l) -> interrupted safe now l s s' -> going_back l s -> going_back l s'.
Proof. intros ND H. induction H; auto. intros G. apply IHinterrupted. eapply going_back_step; eassumption. Qed.
End P.
