(** * C30: at most one writer works on a repository *)
From Coq Require Import List Arith Bool Lia.
From Verif Require Import M_Lock.
Import List ListNotations.

(** nobody has begun, no lock is held *)
Definition quiet (w : world) : Prop := f_held (fst w) = [] /\ (forall p, snd w p = PStart) /\
  (forall i, f_lock (fst w) = Some i -> i < f_next (fst w)) /\ (f_data (fst w) = false -> f_lock (fst w) = None).
(** the process is at work *)
Definition working (w : world) (p : nat) : Prop := exists h, snd w p = PWork h.
(** at work, and it got the lock *)
Definition working_locked (w : world) (p : nat) : Prop := exists i, snd w p = PWork (Locked i).

Section Inv.
Variable writable force : nat -> bool.
Notation run := (run writable force).

Definition compat (x y : nat * nat * bool) : Prop :=
  let '(i, p, a) := x in let '(j, q, b) := y in i = j -> a = false /\ b = false.
(** without the removal of a failed initial backup there is one lock file *)
Record inv (w : world) : Prop := {
  i_data : f_lock (fst w) <> None -> f_data (fst w) = true;
  i_flock : forall p i, snd w p = PFlock i -> f_lock (fst w) = Some i;
  i_locked : forall p i, snd w p = PWork (Locked i) -> f_lock (fst w) = Some i /\ In (i, p, writable p) (f_held (fst w));
  i_held : forall i p b, In (i, p, b) (f_held (fst w)) -> snd w p = PWork (Locked i) /\ b = writable p;
  i_compat : forall x y, In x (f_held (fst w)) -> In y (f_held (fst w)) -> x = y \/ compat x y;
  i_nofile : forall p, snd w p = PWork NoLockFile -> writable p = false;
  i_forced : forall p, snd w p = PWork Forced -> force p = true }.

Lemma upd_same st p s : upd st p s p = s. Proof. unfold upd. now rewrite Nat.eqb_refl. Qed.
Lemma upd_other st p s q : p <> q -> upd st p s q = st q.
Proof. unfold upd. intros H. destruct (Nat.eqb_spec p q); congruence. Qed.
Lemma upd_case st p s q t : upd st p s q = t -> (q = p /\ s = t) \/ (q <> p /\ st q = t).
Proof. unfold upd. destruct (Nat.eqb_spec p q); intros H; [left|right]; auto. Qed.

Lemma conflicts_false r i p : conflicts writable r i p = false ->
  forall j q b, In (j, q, b) (f_held r) -> i = j -> p <> q -> b = false /\ writable p = false.
Proof.
  unfold conflicts. intros H j q b I <- N.
  assert (K := proj2 (not_true_iff_false _) H). destruct (b || writable p) eqn:E; [|now apply orb_false_iff].
  destruct K. apply existsb_exists. exists (i, q, b). split; [exact I|]. rewrite Nat.eqb_refl, E.
  destruct (Nat.eqb_spec p q); [congruence|reflexivity].
Qed.

(** A step of [p] which leaves locks and lock file alone, and doesn't bring it to the lock *)
Lemma inv_quiet r st p r' s' : inv (r, st) -> f_lock r' = f_lock r -> f_held r' = f_held r -> (f_data r = true -> f_data r' = true) ->
  (forall i, st p <> PWork (Locked i)) -> (forall i, s' = PFlock i -> f_lock r = Some i) -> (forall i, s' <> PWork (Locked i)) ->
  (s' = PWork NoLockFile -> writable p = false) -> (s' = PWork Forced -> force p = true) -> inv (r', upd st p s').
Proof.
  intros [D F L H C N O] EL EH ED NL SF SL SN SO. constructor; cbn [fst snd] in *; rewrite ?EL, ?EH.
  - auto.
  - intros q i E. apply upd_case in E as [[-> E]|[_ E]]; eauto.
  - intros q i E. apply upd_case in E as [[-> E]|[_ E]]; [now apply SL in E|auto].
  - intros i q b I. destruct (H i q b I) as [E1 E2]. split; [|exact E2]. rewrite upd_other; [exact E1|]. intros ->. now apply NL in E1.
  - exact C.
  - intros q E. apply upd_case in E as [[-> E]|[_ E]]; auto.
  - intros q E. apply upd_case in E as [[-> E]|[_ E]]; auto.
Qed.
Lemma inv_step r st p l r' s' : inv (r, st) -> step writable force p l r (st p) r' s' -> l <> LClean -> inv (r', upd st p s').
Proof.
  intros I HS NC. remember (st p) as s0 eqn:E0. symmetry in E0. pose proof I as [D F L H C N O]; cbn [fst snd] in *.
  destruct HS as [r|r|r|r|r|r|r|r|r|r|r i|r w W|r s]; try congruence;
    try (apply (inv_quiet r st p); auto; try (intros; congruence); fail).
  - apply (inv_quiet r st p); auto; try (intros; congruence); intros; destruct (writable p); discriminate.
  - apply (inv_quiet r st p); auto; try (intros; congruence); intros; destruct (f_data r); try discriminate; destruct (f_marker r); discriminate.
  - apply (inv_quiet r st p); auto; try (intros; congruence); intros; destruct (f_lock r); try discriminate; destruct (force p); discriminate.
  - destruct (f_data r) eqn:E.
    + apply (inv_quiet r st p); auto; try (intros; congruence); intros; discriminate.
    + assert (EL : f_lock r = None) by (destruct (f_lock r); [discriminate D; discriminate|reflexivity]).
      apply (inv_quiet r st p); auto; try (intros; congruence); cbn; auto; intros; discriminate.
  - apply (inv_quiet r st p); auto; try (intros; congruence); intros; destruct (f_lock r); try discriminate; destruct (writable p); try discriminate; reflexivity.
  - apply (inv_quiet r st p); auto; try (intros; congruence); intros; destruct (f_lock r); try discriminate; congruence.
  - destruct (f_data r) eqn:E; [|destruct (f_lock r) as [i|] eqn:EL; [discriminate D; discriminate|]; apply (inv_quiet r st p); auto; try (intros; congruence); intros; discriminate].
    destruct (f_lock r) as [i|] eqn:EL.
    { apply (inv_quiet r st p); auto; try (intros; congruence); intros; discriminate. }
    assert (Hn : f_held r = []).
    { destruct (f_held r) as [|[[i q] b] t]; [reflexivity|]. destruct (H i q b (or_introl eq_refl)) as [E1 _]. apply L in E1 as [E1 _]. discriminate. }
    constructor; cbn [fst snd f_lock f_held f_data]; try (intros; reflexivity).
    + intros q i E1. apply upd_case in E1 as [[-> E1]|[_ E1]]; [congruence|]. apply F in E1. discriminate.
    + intros q i E1. apply upd_case in E1 as [[-> E1]|[_ E1]]; [discriminate|]. apply L in E1 as [E1 _]. discriminate.
    + rewrite Hn. intros i q b [].
    + rewrite Hn. intros x y [].
    + intros q E1. apply upd_case in E1 as [[-> E1]|[_ E1]]; [discriminate|auto].
    + intros q E1. apply upd_case in E1 as [[-> E1]|[_ E1]]; [discriminate|auto].
  - destruct (conflicts writable r i p) eqn:K.
    { apply (inv_quiet r st p); auto; try (intros; congruence); intros; destruct (force p) eqn:Fp; congruence. }
    assert (NH : forall j b, ~ In (j, p, b) (f_held r)) by (intros j b X; apply H in X as [X _]; congruence).
    pose proof (conflicts_false r i p K) as CF.
    constructor; cbn [fst snd f_lock f_held f_data].
    + exact D.
    + intros q j E1. apply upd_case in E1 as [[-> E1]|[_ E1]]; [discriminate|eauto].
    + intros q j E1. apply upd_case in E1 as [[-> E1]|[_ E1]].
      * injection E1 as <-. split; [eauto|now left].
      * destruct (L q j E1) as [X Y]. split; [exact X|now right].
    + intros j q b [X|X].
      * injection X as <- <- <-. now rewrite upd_same.
      * destruct (H j q b X) as [Y Z]. split; [|exact Z]. rewrite upd_other; [exact Y|]. intros <-. now apply NH in X.
    + intros x y [<-|X] [<-|Y]; auto.
      * right. destruct y as [[j q] b]. intros Ej. destruct (CF j q b Y Ej) as [A B]; [intros <-; now apply NH in Y|]. now split.
      * right. destruct x as [[j q] b]. intros Ej. destruct (CF j q b X (eq_sym Ej)) as [A B]; [intros <-; now apply NH in X|]. now split.
    + intros q E1. apply upd_case in E1 as [[-> E1]|[_ E1]]; [discriminate|auto].
    + intros q E1. apply upd_case in E1 as [[-> E1]|[_ E1]]; [discriminate|auto].
  - (* the marker *)
    constructor; cbn [fst snd f_lock f_held f_data]; auto.
    + intros q i E1. apply upd_case in E1 as [[-> E1]|[_ E1]]; [discriminate|eauto].
    + intros q i E1. apply upd_case in E1 as [[-> E1]|[_ E1]]; [apply L; congruence|auto].
    + intros i q b X. destruct (H i q b X) as [Y Z]. split; [|exact Z]. destruct (Nat.eq_dec p q) as [<-|Nq]; [rewrite upd_same; congruence|now rewrite upd_other].
    + intros q E1. apply upd_case in E1 as [[-> E1]|[_ E1]]; [apply N; congruence|auto].
    + intros q E1. apply upd_case in E1 as [[-> E1]|[_ E1]]; [apply O; congruence|auto].
  - (* the end *)
    assert (IR : forall i q b, In (i, q, b) (f_held (release p r)) <-> In (i, q, b) (f_held r) /\ p <> q).
    { intros i q b. cbn [release f_held]. rewrite filter_In. destruct (Nat.eqb_spec p q); cbn [negb]; intuition congruence. }
    constructor; cbn [fst snd]; try (cbn [release f_lock f_data]).
    + exact D.
    + intros q i E1. apply upd_case in E1 as [[-> E1]|[_ E1]]; [discriminate|eauto].
    + intros q i E1. apply upd_case in E1 as [[-> E1]|[Nq E1]]; [discriminate|]. destruct (L q i E1) as [X Y]. split; [exact X|]. apply IR. split; congruence.
    + intros i q b X. apply IR in X as [X Nq]. rewrite upd_other by congruence. auto.
    + intros [[i q] b] [[j q'] b'] X Y. apply IR in X as [X _]. apply IR in Y as [Y _]. now apply C.
    + intros q E1. apply upd_case in E1 as [[-> E1]|[_ E1]]; [discriminate|auto].
    + intros q E1. apply upd_case in E1 as [[-> E1]|[_ E1]]; [discriminate|auto].
Qed.
Lemma inv_init w : quiet w -> inv w.
Proof.
  intros (E & P & _ & D). constructor; try (intros; rewrite P in *; discriminate).
  - intros H. destruct (f_data (fst w)); [reflexivity|]. now destruct H, D.
  - rewrite E. intros i p b [].
  - rewrite E. intros x y [].
Qed.
Lemma inv_run w ls w' : quiet w -> run w ls w' -> ~ In LClean ls -> inv w'.
Proof.
  intros Q R. induction R as [w|w ls r st p l r' s' R IH HS]; intros N; [now apply inv_init|].
  eapply inv_step; [apply IH; [exact Q|intros X; apply N, in_or_app; now left]|exact HS|]. intros ->. apply N, in_or_app. right. now left.
Qed.
(** with a marker nothing is removed *)
Lemma marked_run w ls w' : quiet w -> f_marker (fst w) = true -> f_data (fst w) = true -> run w ls w' ->
  ~ In LClean ls /\ f_marker (fst w') = true /\ f_data (fst w') = true /\ forall p, ~ In (snd w' p) [PCheckLock; PClean; PMkdir true; PCreate false].
Proof.
  intros Q M D R. induction R as [w|w ls r st p l r' s' R IH HS].
  { destruct Q as (_ & P & _). repeat split; auto. intros p X. rewrite P in X. cbn in X. intuition discriminate. }
  destruct (IH Q M D) as (I1 & I2 & I3 & I4). cbn [fst snd] in *.
  assert (W : l <> LClean /\ f_marker r' = true /\ f_data r' = true /\ ~ In s' [PCheckLock; PClean; PMkdir true; PCreate false]).
  { remember (st p) as s0 eqn:E0. specialize (I4 p). rewrite <- E0 in I4.
    destruct HS as [r|r|r|r|r|r|r|r|r|r|r i|r w0 W0|r s]; cbn [In] in *; rewrite ?I2, ?I3 in *; try tauto.
    - destruct (writable p); repeat split; auto; intuition discriminate.
    - repeat split; auto; intuition discriminate.
    - repeat split; auto; intuition discriminate.
    - destruct (f_lock r), (writable p); repeat split; auto; intuition discriminate.
    - destruct (f_lock r); repeat split; auto; intuition discriminate.
    - destruct (f_lock r); repeat split; auto; intuition discriminate.
    - destruct (conflicts writable r i p), (force p); repeat split; auto; intuition discriminate.
    - repeat split; auto; intuition discriminate.
    - repeat split; auto; intuition discriminate. }
  destruct W as (W1 & W2 & W3 & W4). repeat split; auto.
  - intros X. apply in_app_or in X as [X|[X|[]]]; congruence.
  - intros q X. unfold upd in X. destruct (Nat.eqb p q); [now apply W4 in X|now apply I4 in X].
Qed.
Lemma excl w : inv w -> forall p q, p <> q -> writable p = true -> force p = false -> working w p ->
  ~ working_locked w q /\ (writable q = true -> force q = false -> ~ working w q).
Proof.
  intros [D F L H C N O] p q Npq Wp Fp [h Hp].
  assert (exists i, h = Locked i) as [i ->].
  { destruct h as [i| |]; [eauto|apply O in Hp; congruence|apply N in Hp; congruence]. }
  assert (X : ~ working_locked w q).
  { intros [j Hq]. destruct (L p i Hp) as [E1 I1], (L q j Hq) as [E2 I2]. assert (j = i) as -> by congruence.
    destruct (C _ _ I1 I2) as [K|K]; [congruence|]. destruct (K eq_refl) as [K1 _]. congruence. }
  split; [exact X|]. intros Wq Fq [h Hq]. destruct h as [j| |]; [apply X; now exists j|apply O in Hq; congruence|apply N in Hq; congruence].
Qed.
End Inv.

(** However many processes start, in whatever order their steps come and wherever they are killed: once the
    first backup is complete, while a writing process not forced is at work, no other writing
    process not forced is, and no reader that got its lock. *)
Theorem C30_one_writer : forall writable force w ls w',
  quiet w -> f_data (fst w) = true -> f_marker (fst w) = true -> run writable force w ls w' ->
  forall p q, p <> q -> writable p = true -> force p = false -> working w' p ->
  ~ working_locked w' q /\ (writable q = true -> force q = false -> ~ working w' q).
Proof.
  intros writable force w ls w' Q D M R p q Npq Wp Fp Hp. destruct (marked_run writable force w ls w' Q M D R) as (NC & _).
  apply (excl writable force w' (inv_run _ _ _ _ _ Q R NC)) with (p := p); assumption.
Qed.
(** The same for a new repository, as long as no process removes what it takes for a failed first backup. *)
Theorem C30_one_writer_new : forall writable force w ls w',
  quiet w -> run writable force w ls w' -> ~ In LClean ls ->
  forall p q, p <> q -> writable p = true -> force p = false -> working w' p ->
  ~ working_locked w' q /\ (writable q = true -> force q = false -> ~ working w' q).
Proof.
  intros writable force w ls w' Q R NC p q Npq Wp Fp Hp.
  apply (excl writable force w' (inv_run _ _ _ _ _ Q R NC)) with (p := p); assumption.
Qed.

(** Running a process by itself *)
Definition next (writable force : nat -> bool) (p : nat) (w : world) : world :=
  let '(r, st) := w in
  let go (r' : repo) (s' : pstate) := (r', upd st p s') in
  match st p with
  | PStart => go r (if writable p then PCreate (f_data r) else PLock)
  | PCreate false => go r (PMkdir true)
  | PCreate true => go r (if f_data r then if f_marker r then PMkdir false else PCheckLock else PDone)
  | PCheckLock => go r (match f_lock r with Some _ => if force p then PClean else PDone | None => PClean end)
  | PClean => go (mk_repo false false None (f_next r) (f_held r)) (PMkdir true)
  | PMkdir true => go (if f_data r then r else mk_repo true false None (f_next r) (f_held r)) (if f_data r then PDone else PLock)
  | PMkdir false => go r PLock
  | PLock => go r (match f_lock r with Some _ => POpen true | None => if writable p then POpen false else PWork NoLockFile end)
  | POpen true => go r (match f_lock r with Some i => PFlock i | None => PDone end)
  | POpen false => go (match f_lock r with None => if f_data r then mk_repo true (f_marker r) (Some (f_next r)) (S (f_next r)) (f_held r) else r | Some _ => r end)
      (if f_data r then match f_lock r with Some i => PFlock i | None => PFlock (f_next r) end else PDone)
  | PFlock i => go (if conflicts writable r i p then r else mk_repo (f_data r) (f_marker r) (f_lock r) (f_next r) ((i, p, writable p) :: f_held r))
      (if conflicts writable r i p then if force p then PWork Forced else PDone else PWork (Locked i))
  | PWork _ | PDone => w
  end.
(** A lock doesn't outlive the process: when nobody is at work on a repository with a complete backup, a
    writer starting then gets the lock. *)
Theorem C30_lock_not_left : forall writable force w ls r st p,
  quiet w -> f_data (fst w) = true -> f_marker (fst w) = true -> run writable force w ls (r, st) ->
  (forall q, ~ working (r, st) q) -> st p = PStart -> writable p = true ->
  exists ls' r' st' i, run writable force (r, st) ls' (r', st') /\ st' p = PWork (Locked i) /\ (forall q, q <> p -> st' q = st q).
Proof.
  intros writable force w ls r st p Q D M R NW Sp Wp.
  destruct (marked_run writable force w ls _ Q M D R) as (NC & Mr & Dr & _). pose proof (inv_run _ _ _ _ _ Q R NC) as [_ _ L H _ _ _].
  cbn [fst snd] in *.
  assert (Hn : f_held r = []).
  { destruct (f_held r) as [|[[i q] b] t]; [reflexivity|]. destruct (H i q b (or_introl eq_refl)) as [E1 _]. destruct (NW q). eexists. exact E1. }
  set (st1 := upd st p (PCreate true)). set (st2 := upd st1 p (PMkdir false)). set (st3 := upd st2 p PLock).
  assert (R3 : run writable force (r, st) [LStep; LStep; LStep] (r, st3)).
  { apply (R_step _ _ _ [LStep; LStep] r st2 p); [apply (R_step _ _ _ [LStep] r st1 p); [apply (R_step _ _ _ [] r st p); [constructor|]|]|].
    - rewrite Sp. pose proof (S_start writable force p r) as X. rewrite Wp, Dr in X. exact X.
    - unfold st1. rewrite upd_same. pose proof (S_failed writable force p r) as X. rewrite Mr, Dr in X. exact X.
    - unfold st2. rewrite upd_same. constructor. }
  assert (O3 : forall q, q <> p -> st3 q = st q).
  { intros q Nq. unfold st3, st2, st1. now rewrite !upd_other by congruence. }
  assert (FL : forall r0 st0 i, f_held r0 = [] -> st0 p = PFlock i ->
     exists r' st', run writable force (r0, st0) [LStep] (r', st') /\ st' p = PWork (Locked i) /\ forall q, q <> p -> st' q = st0 q).
  { intros r0 st0 i E0 Ep. eexists _, _. split; [|split].
    - apply (R_step _ _ _ [] r0 st0 p LStep); [constructor|]. rewrite Ep. pose proof (S_flock writable force p r0 i) as X.
      unfold conflicts in X. rewrite E0 in X. exact X.
    - apply upd_same.
    - intros q Nq. now rewrite upd_other by congruence. }
  assert (TR : forall w1 l1 w2 l2 w3, run writable force w1 l1 w2 -> run writable force w2 l2 w3 -> run writable force w1 (l1 ++ l2) w3).
  { intros w1 l1 w2 l2 w3 A B. revert A. induction B as [w2|w2 l2 r0 st0 q l r' s' B IH HS]; intros A; [now rewrite app_nil_r|].
    rewrite app_assoc. eapply R_step; [now apply IH|exact HS]. }
  destruct (f_lock r) as [i|] eqn:EL.
  - set (st4 := upd st3 p (POpen true)). set (st5 := upd st4 p (PFlock i)).
    assert (R5 : run writable force (r, st3) [LStep; LStep] (r, st5)).
    { apply (R_step _ _ _ [LStep] r st4 p); [apply (R_step _ _ _ [] r st3 p); [constructor|]|].
      - unfold st3 at 1. rewrite upd_same. pose proof (S_lock writable force p r) as X. rewrite EL in X. exact X.
      - unfold st4 at 1. rewrite upd_same. pose proof (S_open writable force p r) as X. rewrite EL in X. exact X. }
    destruct (FL r st5 i Hn) as (r' & st' & R6 & E6 & O6); [apply upd_same|].
    eexists _, r', st', i. split; [eapply TR; [eapply TR; eassumption|exact R6]|]. split; [exact E6|].
    intros q Nq. rewrite O6 by exact Nq. unfold st5, st4. rewrite !upd_other by congruence. auto.
  - set (st4 := upd st3 p (POpen false)). set (st5 := upd st4 p (PFlock (f_next r))).
    set (r5 := mk_repo true (f_marker r) (Some (f_next r)) (S (f_next r)) (f_held r)).
    assert (R5 : run writable force (r, st3) [LStep; LStep] (r5, st5)).
    { apply (R_step _ _ _ [LStep] r st4 p); [apply (R_step _ _ _ [] r st3 p); [constructor|]|].
      - unfold st3 at 1. rewrite upd_same. pose proof (S_lock writable force p r) as X. rewrite EL, Wp in X. exact X.
      - unfold st4 at 1. rewrite upd_same. pose proof (S_creat writable force p r) as X. rewrite EL, Dr in X. exact X. }
    destruct (FL r5 st5 (f_next r) Hn) as (r' & st' & R6 & E6 & O6); [apply upd_same|].
    eexists _, r', st', _. split; [eapply TR; [eapply TR; eassumption|exact R6]|]. split; [exact E6|].
    intros q Nq. rewrite O6 by exact Nq. unfold st5, st4. rewrite !upd_other by congruence. auto.
Qed.

(** ** What does not hold *)
Definition all (_ : nat) := true.
Definition none (_ : nat) := false.
Lemma next_run writable force p w : (match snd w p with PWork _ | PDone => false | _ => true end) = true ->
  exists l, forall w0 ls, run writable force w0 ls w -> run writable force w0 (ls ++ [l]) (next writable force p w).
Proof.
  destruct w as [r st]. cbn [snd]. intros H.
  exists (match st p with PClean => LClean | _ => LStep end). intros w0 ls R. unfold next.
  destruct (st p) as [|[]| | |[]| |[]|i|h|] eqn:E; try discriminate;
    (eapply R_step; [exact R|]; rewrite E; constructor).
Qed.
Fixpoint sched (writable force : nat -> bool) (l : list nat) (w : world) : world :=
  match l with [] => w | p :: l' => sched writable force l' (next writable force p w) end.
Fixpoint sched_ok (writable force : nat -> bool) (l : list nat) (w : world) : bool :=
  match l with
  | [] => true
  | p :: l' => (match snd w p with PWork _ | PDone => false | _ => true end) && sched_ok writable force l' (next writable force p w)
  end.
Lemma sched_run writable force l : forall w0 ls w, run writable force w0 ls w -> sched_ok writable force l w = true ->
  exists ls', run writable force w0 ls' (sched writable force l w).
Proof.
  induction l as [|p l IH]; intros w0 ls w R H; cbn [sched sched_ok] in *; [eauto|]. apply andb_true_iff in H as [H1 H2].
  destruct (next_run writable force p w H1) as [lb K]. eapply IH; [apply K; exact R|exact H2].
Qed.
(** Two processes making the first backup at the same time can both be at work: the second takes the
    directory just created by the first for a failed backup, and removes it with the first's lock file. *)
Theorem C30_first_backup_race_refuted : exists w ls w',
  quiet w /\ run all none w ls w' /\ working_locked w' 1 /\ working_locked w' 2.
Proof.
  set (w := (mk_repo false false None 0 [], fun _ : nat => PStart) : world).
  set (l := [1; 1; 1; 2; 2; 2; 1; 1; 1; 2; 2; 2; 2; 2]).
  destruct (sched_run all none l w [] w (R_nil _ _ w) eq_refl) as [ls R].
  exists w, ls, (sched all none l w). split; [|split; [exact R|split; eexists; vm_compute; reflexivity]].
  repeat split; cbn; try reflexivity; intros; discriminate.
Qed.
(** When the first backup is killed, its lock file stays, and later backups are refused for that, though
    nobody holds the lock (unless forced). *)
Theorem C30_killed_first_backup_refuted : exists w ls r st,
  quiet w /\ run all none w ls (r, st) /\ f_held r = [] /\ (forall q, ~ working (r, st) q) /\ st 2 = PStart /\
  forall ls' w', run all none (r, st) ls' w' -> ~ working w' 2.
Proof.
  set (w := (mk_repo false false None 0 [], fun _ : nat => PStart) : world).
  set (l := [1; 1; 1; 1; 1; 1]).
  destruct (sched_run all none l w [] w (R_nil _ _ w) eq_refl) as [ls R].
  assert (Q : quiet w) by (repeat split; cbn; try reflexivity; intros; discriminate).
  destruct (sched all none l w) as [r st] eqn:E.
  assert (R2 : run all none w (ls ++ [LEnd]) (release 1 r, upd st 1 PDone)) by (eapply R_step; [exact R|constructor]).
  assert (Er : release 1 r = mk_repo true false (Some 0) 1 []) by (vm_compute in E; injection E as <- <-; reflexivity).
  assert (Es : forall q, upd st 1 PDone q = if Nat.eqb 1 q then PDone else PStart).
  { intros q. destruct (Nat.eq_dec 1 q) as [<-|Nq]; [reflexivity|]. rewrite upd_other by exact Nq.
    assert (Ew : forall l w0, ~ In q l -> snd (sched all none l w0) q = snd w0 q).
    { clear. induction l as [|p l IH]; intros w0 N; cbn [sched]; [reflexivity|]. rewrite IH by (intros X; apply N; now right).
      destruct w0 as [r st]. assert (p <> q) by (intros ->; apply N; now left). unfold next.
      destruct (st p) as [|[]| | |[]| |[]|i|h|]; cbn [snd]; try reflexivity; apply upd_other; assumption. }
    specialize (Ew l w). rewrite E in Ew. cbn [snd] in Ew. rewrite Ew; [|cbn; intuition congruence]. destruct (Nat.eqb_spec 1 q); [congruence|reflexivity]. }
  exists w, (ls ++ [LEnd]), (release 1 r), (upd st 1 PDone). split; [exact Q|]. split; [exact R2|].
  rewrite Er. split; [reflexivity|]. split; [intros q [h X]; cbn [snd] in X; rewrite Es in X; destruct (Nat.eqb 1 q); discriminate|].
  split; [rewrite Es; reflexivity|].
  (* nobody ever gets further than the check *)
  assert (K : forall ls' w', run all none (mk_repo true false (Some 0) 1 [], upd st 1 PDone) ls' w' ->
     fst w' = mk_repo true false (Some 0) 1 [] /\ forall q, In (snd w' q) [PStart; PCreate true; PCheckLock; PDone]).
  { intros ls' w' R'. remember (mk_repo true false (Some 0) 1 [], upd st 1 PDone) as w1 eqn:E1.
    induction R' as [w1|w1 ls' r1 st1 p lb r' s' R' IH HS]; subst.
    - split; [reflexivity|]. intros q. cbn [snd]. rewrite Es. destruct (Nat.eqb 1 q); cbn; auto.
    - destruct (IH eq_refl) as [I1 I2]. cbn [fst snd] in *. subst r1. specialize (I2 p) as Ip.
      assert (W : r' = mk_repo true false (Some 0) 1 [] /\ In s' [PStart; PCreate true; PCheckLock; PDone]).
      { destruct Ip as [Ip|[Ip|[Ip|[Ip|[]]]]]; rewrite <- Ip in HS; inversion HS; subst; cbn; (split; [reflexivity|auto]). }
      destruct W as [-> W]. split; [reflexivity|]. intros q. unfold upd. destruct (Nat.eqb p q); auto. }
  intros ls' w' R' [h X]. destruct (K ls' w' R') as [_ K2]. specialize (K2 2). rewrite X in K2. cbn in K2. intuition discriminate.
Qed.

(** ** Examples *)
(** an existing repository: the first process works, the second is refused, a third can't even read *)
Example one_writer_ex :
  let w := (mk_repo true true (Some 0) 1 [], fun _ : nat => PStart) : world in
  let writes := fun p => Nat.ltb p 3 in
  quiet w /\ sched_ok writes none [1; 2; 1; 2; 1; 2; 1; 2; 1; 2; 2; 1; 3; 3; 3; 3] w = true /\
  let w' := sched writes none [1; 2; 1; 2; 1; 2; 1; 2; 1; 2; 2; 1; 3; 3; 3; 3] w in
  snd w' 1 = PDone /\ snd w' 2 = PWork (Locked 0) /\ snd w' 3 = PDone.
Proof. cbv zeta. split; [|split; [|split; [|split]]]; try (vm_compute; reflexivity). repeat split; cbn; try reflexivity; intros; try discriminate. injection H as <-. lia. Qed.
(** two readers go together *)
Example two_readers_ex :
  let w := (mk_repo true true (Some 0) 1 [], fun _ : nat => PStart) : world in
  let w' := sched none none [1; 2; 1; 2; 1; 2; 1; 2] w in
  snd w' 1 = PWork (Locked 0) /\ snd w' 2 = PWork (Locked 0).
Proof. split; vm_compute; reflexivity. Qed.

Print Assumptions C30_one_writer.
Print Assumptions C30_one_writer_new.
Print Assumptions C30_lock_not_left.
Print Assumptions C30_first_backup_race_refuted.
Print Assumptions C30_killed_first_backup_refuted.
