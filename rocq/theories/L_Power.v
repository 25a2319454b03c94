(** * Lemmas about power failures: one path at a time *)
From Coq Require Import List NArith Bool Ascii Arith Lia.
From Verif Require Import Base M_Power S_Power.
Import List ListNotations.

Lemma path_eqb_refl p : path_eqb p p = true.
Proof. unfold path_eqb. destruct (list_eq_dec (list_eq_dec Ascii.ascii_dec) p p); [reflexivity|contradiction]. Qed.
Lemma path_eqb_eq p q : path_eqb p q = true -> p = q.
Proof. unfold path_eqb. destruct (list_eq_dec (list_eq_dec Ascii.ascii_dec) p q); [auto|discriminate]. Qed.
Lemma path_eqb_neq p q : p <> q -> path_eqb p q = false.
Proof. unfold path_eqb. destruct (list_eq_dec (list_eq_dec Ascii.ascii_dec) p q); [contradiction|reflexivity]. Qed.
Lemma opath_eqb_refl p : opath_eqb p p = true.
Proof. destruct p as [p|]; [apply path_eqb_refl|reflexivity]. Qed.
Lemma beq_refl b : beq b b = true.
Proof. unfold beq. destruct (list_eq_dec Ascii.ascii_dec b b); [reflexivity|contradiction]. Qed.
Lemma beq_eq a b : beq a b = true -> a = b.
Proof. unfold beq. destruct (list_eq_dec Ascii.ascii_dec a b); [auto|discriminate]. Qed.

Section P.
Variables (safe : bool) (now : N).
Notation run1 := (run1 safe now). Notation run := (run safe now).

(** what an operation does to one path *)
Definition act (p : path) (f : pstate) (o : op) : pstate :=
  match o with
  | Create q n c => if path_eqb p q then create now n c f else f
  | SetAttr q n a => if path_eqb p q then on_file n (set_attr a) f else f
  | Fsync q n => if path_eqb p q then on_file n fsync f else f
  | Rename q => if path_eqb p q then rename safe f else f
  | Unlink q n => if path_eqb p q then set_ent n None f else f
  | Mkdir q => if path_eqb p q then create now NIncDir Mark f else f
  | FsyncDir (DMirror d) => if opath_eqb (parent p) d then settle_names [NMirror; NTemp] f else f
  | FsyncDir (DInc d) => if opath_eqb (parent p) d then settle_names [NInc; NIncDir] f else f
  | Sync => settle_all f
  | _ => f
  end.
Definition acts (p : path) (f : pstate) (l : list op) : pstate := fold_left (act p) l f.
Lemma files_run1 s o p : files (run1 s o) p = act p (files s p) o.
Proof. destruct o as [q n c|q n a|q n|q|q n|q|[d|d|]| | | |]; cbn; try reflexivity; destruct (path_eqb p q); reflexivity. Qed.
Lemma files_run l : forall s p, files (run s l) p = acts p (files s p) l.
Proof.
  induction l as [|o l IH]; intros s p; [reflexivity|]. unfold run, acts in *. cbn [fold_left M_Power.run]. 
  change (fold_left (M_Power.run1 safe now) l (run1 s o)) with (run (run1 s o) l). unfold run. rewrite IH. now rewrite files_run1.
Qed.
Lemma acts_app p f a b : acts p f (a ++ b) = acts p (acts p f a) b.
Proof. apply fold_left_app. Qed.
Lemma run_app s a b : run s (a ++ b) = run (run s a) b.
Proof. apply fold_left_app. Qed.

(** ** Settling *)
Definition wf_cell {A} (c : cell A) : Prop := poss c (cur c).
Definition wf (f : pstate) : Prop :=
  (forall n, wf_cell (ent f n)) /\ (forall i, wf_cell (dat f i)) /\ (forall i, wf_cell (att f i)) /\
  (forall n i, poss (ent f n) (Some i) -> i < nxt f).
Definition cle {A} (c c' : cell A) : Prop := cur c' = cur c /\ forall x, poss c' x -> poss c x.
(** [g] is [f] with more of it forced to the disk *)
Definition settled (f g : pstate) : Prop :=
  (forall n, cle (ent f n) (ent g n)) /\ (forall i, cle (dat f i) (dat g i)) /\ (forall i, cle (att f i) (att g i)) /\ nxt g = nxt f.
Lemma cle_refl {A} (c : cell A) : cle c c.
Proof. split; auto. Qed.
Lemma cle_settle {A} (c : cell A) : wf_cell c -> cle c (settle c).
Proof. intros W. split; [reflexivity|]. cbn. now intros x ->. Qed.
Lemma settled_refl f : settled f f.
Proof. repeat split; auto. Qed.
Lemma settled_trans f g h : settled f g -> settled g h -> settled f h.
Proof.
  intros (A1 & A2 & A3 & A4) (B1 & B2 & B3 & B4). repeat split; try congruence.
  - destruct (A1 n), (B1 n). congruence.
  - intros x Hx. apply A1, B1, Hx.
  - destruct (A2 i), (B2 i). congruence.
  - intros x Hx. apply A2, B2, Hx.
  - destruct (A3 i), (B3 i). congruence.
  - intros x Hx. apply A3, B3, Hx.
Qed.
Lemma wf_settle {A} (c : cell A) : wf_cell (settle c).
Proof. reflexivity. Qed.
Lemma settled_names l f : wf f -> settled f (settle_names l f).
Proof. intros (W1 & _). repeat split; auto; cbn; destruct (existsb (name_eqb n) l); try reflexivity; cbn; auto. intros x ->. apply W1. Qed.
Lemma settled_all f : wf f -> settled f (settle_all f).
Proof.
  intros (W1 & W2 & W3 & _). split; [|split; [|split]]; cbn; try (intros; apply cle_settle); auto.
Qed.
Lemma plost_settled f g h : settled f g -> plost g h -> plost f h.
Proof.
  intros (A1 & A2 & A3 & A4) (B1 & B2 & B3 & B4). repeat split; try congruence; try apply B1; try apply B2; try apply B3.
  - apply A1, B1.
  - apply A2, B2.
  - apply A3, B3.
Qed.
Lemma wf_settled f g : wf f -> settled f g -> (forall n, wf_cell (ent g n)) -> (forall i, wf_cell (dat g i)) -> (forall i, wf_cell (att g i)) -> wf g.
Proof. intros (_ & _ & _ & W) (A1 & _ & _ & A4) H1 H2 H3. repeat split; auto. intros n i H. rewrite A4. apply (W n). now apply A1. Qed.

(** operations which only settle this path *)
Definition quiet (p : path) (o : op) : Prop :=
  match o with
  | Create q _ _ | SetAttr q _ _ | Fsync q _ | Rename q | Unlink q _ | Mkdir q => p <> q
  | _ => True
  end.
Lemma quiet_act p o f : quiet p o -> wf f -> settled f (act p f o) /\ wf (act p f o).
Proof.
  assert (N : forall l, wf f -> wf (settle_names l f)).
  { intros l W. eapply wf_settled; [exact W|now apply settled_names| | |]; cbn; intros x; try (destruct (existsb (name_eqb x) l); [apply wf_settle|]); apply W. }
  intros Q W. destruct o as [q n c|q n a|q n|q|q n|q|[d|d|]| | | |]; cbn in *; try (rewrite path_eqb_neq by assumption);
    try (split; [apply settled_refl|exact W]).
  - destruct (opath_eqb (parent p) d); [|split; [apply settled_refl|exact W]]. split; [now apply settled_names|now apply N].
  - destruct (opath_eqb (parent p) d); [|split; [apply settled_refl|exact W]]. split; [now apply settled_names|now apply N].
  - split; [now apply settled_all|]. eapply wf_settled; [exact W|now apply settled_all| | |]; intros; apply wf_settle.
Qed.
Lemma quiet_acts p l : forall f, Forall (quiet p) l -> wf f -> settled f (acts p f l) /\ wf (acts p f l).
Proof.
  induction l as [|o l IH]; intros f H W; [split; [apply settled_refl|exact W]|]. inversion H; subst. cbn.
  destruct (quiet_act p o f H2 W) as [S1 W1]. destruct (IH _ H3 W1) as [S2 W2]. split; [eapply settled_trans; eassumption|exact W2].
Qed.

(** ** Everything keeps [wf] *)
Lemma wf_set_ent n v f : wf f -> (forall i, v = Some i -> i < nxt f) -> wf (set_ent n v f).
Proof.
  intros (W1 & W2 & W3 & W4) H. repeat split; auto; cbn.
  - intros m. destruct (name_eqb m n); [right; reflexivity|apply W1].
  - intros m i. destruct (name_eqb m n); [|apply W4]. intros [X|X]; [eapply W4; exact X|now apply H].
Qed.
Lemma wf_create n c f : wf f -> (like c c) -> wf (create now n c f).
Proof.
  intros (W1 & W2 & W3 & W4) L. unfold create. apply wf_set_ent; [|cbn; intros i [= <-]; lia].
  repeat split; auto; cbn.
  - intros i. destruct (i =? nxt f); [exact L|apply W2].
  - intros i. destruct (i =? nxt f); [reflexivity|apply W3].
  - intros m i H. apply W4 in H. lia.
Qed.
Lemma like_refl c : like c c.
Proof. destruct c; cbn; auto. Qed.
Lemma wf_act p f o : wf f -> wf (act p f o).
Proof.
  intros W. destruct o as [q n c|q n a|q n|q|q n|q|[d|d|]| | | |]; cbn; try exact W; try (destruct (path_eqb p q); [|exact W]).
  - apply wf_create; [exact W|apply like_refl].
  - unfold on_file. destruct (cur (ent f n)) as [i|]; [|exact W]. destruct W as (W1 & W2 & W3 & W4). repeat split; auto. cbn.
    intros j. destruct (j =? i); [right; reflexivity|apply W3].
  - unfold on_file. destruct (cur (ent f n)) as [i|]; [|exact W]. destruct W as (W1 & W2 & W3 & W4). repeat split; auto; cbn;
    intros j; destruct (j =? i); try reflexivity; [apply W2|apply W3].
  - unfold rename. destruct (cur (ent f NTemp)) as [i|] eqn:E; [|exact W].
    assert (I : i < nxt f) by (destruct W as (W1 & _ & _ & W4); apply (W4 NTemp); rewrite <- E; apply W1).
    apply wf_set_ent; [|discriminate]. apply wf_set_ent.
    + unfold flush. destruct safe; [|exact W]. destruct W as (W1 & W2 & W3 & W4). repeat split; auto. cbn. intros j. destruct (j =? i); [reflexivity|apply W2].
    + intros j [= <-]. unfold flush. destruct safe; exact I.
  - apply wf_set_ent; [exact W|discriminate].
  - apply wf_create; [exact W|exact I].
  - destruct (opath_eqb (parent p) d) eqn:E; [|exact W]. pose proof (quiet_act p (FsyncDir (DMirror d)) f I W) as [_ X]. cbn in X. now rewrite E in X.
  - destruct (opath_eqb (parent p) d) eqn:E; [|exact W]. pose proof (quiet_act p (FsyncDir (DInc d)) f I W) as [_ X]. cbn in X. now rewrite E in X.
  - now destruct (quiet_act p Sync f I W).
Qed.
Lemma wf_acts p l : forall f, wf f -> wf (acts p f l).
Proof. induction l as [|o l IH]; intros f W; [exact W|]. cbn. now apply IH, wf_act. Qed.

(** ** What may be found of one file *)
(** nothing about the file in the mirror is uncertain *)
Definition intact (v : version) (f : pstate) : Prop :=
  match v with
  | VNone => forall x, poss (ent f NMirror) x -> x = None
  | VReg b a => exists i, i < nxt f /\ (forall x, poss (ent f NMirror) x -> x = Some i) /\
      (forall c, poss (dat f i) c -> c = Reg b) /\ (forall x, poss (att f i) x -> x = a)
  | VOther k a => exists i, i < nxt f /\ (forall x, poss (ent f NMirror) x -> x = Some i) /\
      (forall c, poss (dat f i) c -> c = Special k) /\ (forall x, poss (att f i) x -> x = a)
  end.
Lemma intact_settled v f g : settled f g -> intact v f -> intact v g.
Proof.
  intros (A1 & A2 & A3 & A4). destruct v; cbn.
  - intros H x Hx. apply H, A1, Hx.
  - intros (i & Hi & H1 & H2 & H3). exists i. rewrite A4. repeat split; auto; intros x Hx; [apply H1, A1, Hx|apply H2, A2, Hx|apply H3, A3, Hx].
  - intros (i & Hi & H1 & H2 & H3). exists i. rewrite A4. repeat split; auto; intros x Hx; [apply H1, A1, Hx|apply H2, A2, Hx|apply H3, A3, Hx].
Qed.
Lemma intact_lost v f f' : intact v f -> plost f f' -> holds v f'.
Proof.
  intros H (L1 & L2 & L3 & _). unfold holds, view. destruct (L1 NMirror) as [M _]. destruct v; cbn in H.
  - now rewrite (H _ M).
  - destruct H as (i & _ & H1 & H2 & H3). rewrite (H1 _ M). destruct (L2 i) as [D _], (L3 i) as [T _]. now rewrite (H2 _ D), (H3 _ T).
  - destruct H as (i & _ & H1 & H2 & H3). rewrite (H1 _ M). destruct (L2 i) as [D _], (L3 i) as [T _]. now rewrite (H2 _ D), (H3 _ T).
Qed.

(** the version can be had again: from the mirror, or from the increment *)
Definition recoverable (rch : bool) (v : version) (f : pstate) : Prop :=
  match v with
  | VReg b a =>
      (exists a', view f NMirror = Some (Reg b, a')) \/
      (rch = true /\ (forall d, view f NMirror <> Some (Reg d, a)) /\
         ((exists a', view f NInc = Some (Snap b, a')) \/
          (exists n a' a'', view f NInc = Some (Diff n b, a') /\ view f NMirror = Some (Reg n, a''))))
  | _ => True
  end.
Definition mirror_regular (f : pstate) : Prop := exists d a, view f NMirror = Some (Reg d, a).

(** the data of the file in the mirror are certain *)
Definition data_certain (b : bytes) (f : pstate) : Prop :=
  exists i, i < nxt f /\ (forall x, poss (ent f NMirror) x -> x = Some i) /\ (forall c, poss (dat f i) c -> c = Reg b).
Definition harmless (o : op) : Prop :=
  match o with Create _ NMirror _ | Unlink _ NMirror | Rename _ => False | _ => True end.
Lemma data_certain_settled b f g : settled f g -> data_certain b f -> data_certain b g.
Proof.
  intros (A1 & A2 & A3 & A4) (i & Hi & H1 & H2). exists i. rewrite A4. repeat split; auto; intros x Hx; [apply H1, A1, Hx|apply H2, A2, Hx].
Qed.
Lemma data_certain_act p b f o : harmless o -> wf f -> data_certain b f -> data_certain b (act p f o).
Proof.
  intros Hh W D.
  assert (CR : forall n c, n <> NMirror -> data_certain b (create now n c f)).
  { intros n c Hn. destruct D as (i & Hi & H1 & H2). exists i. cbn. repeat split; [lia| |].
    - destruct n; cbn; try assumption. contradiction.
    - replace (i =? nxt f) with false by (symmetry; apply Nat.eqb_neq; lia). exact H2. }
  destruct o as [q n c|q n a|q n|q|q n|q|[d|d|]| | | |]; try (eapply data_certain_settled; [|exact D]; now apply (quiet_act p)).
  - cbn. destruct (path_eqb p q); [|exact D]. apply CR. intros ->. contradiction.
  - cbn. destruct (path_eqb p q); [|exact D]. unfold on_file. destruct (cur (ent f n)); exact D.
  - cbn. destruct (path_eqb p q); [|exact D]. unfold on_file. destruct (cur (ent f n)) as [j|] eqn:E; [|exact D].
    destruct D as (i & Hi & H1 & H2). exists i. cbn. repeat split; auto. destruct (i =? j); [|exact H2]. cbn. intros c ->. apply H2, W.
  - cbn. destruct (path_eqb p q); [|exact D]. destruct D as (i & Hi & H1 & H2). exists i. cbn. repeat split; auto. destruct n; cbn; try assumption. contradiction.
  - cbn. destruct (path_eqb p q); [|exact D]. apply CR. discriminate.
Qed.
Lemma data_certain_acts p b l : forall f, Forall harmless l -> wf f -> data_certain b f -> data_certain b (acts p f l).
Proof.
  induction l as [|o l IH]; intros f H W D; [exact D|]. inversion H; subst. cbn. apply IH; auto; [now apply wf_act|now apply data_certain_act].
Qed.
Lemma data_certain_lost b f f' : data_certain b f -> plost f f' -> exists a, view f' NMirror = Some (Reg b, a).
Proof.
  intros (i & _ & H1 & H2) (L1 & L2 & L3 & _). destruct (L1 NMirror) as [M _], (L2 i) as [D _]. unfold view. rewrite (H1 _ M), (H2 _ D). eauto.
Qed.
Lemma intact_data b a f : intact (VReg b a) f -> data_certain b f.
Proof. intros (i & Hi & H1 & H2 & _). now exists i. Qed.

Lemma firstn_last {A} (l : list A) x k : firstn k (l ++ [x]) = firstn k l \/ firstn k (l ++ [x]) = l ++ [x].
Proof.
  rewrite firstn_app. destruct (k - length l) as [|m] eqn:E; [left|right].
  - cbn. apply app_nil_r.
  - rewrite firstn_all2 by lia. cbn. now rewrite firstn_nil.
Qed.
Lemma Forall_firstn {A} (P : A -> Prop) l : forall k, Forall P l -> Forall P (firstn k l).
Proof. induction l as [|x l IH]; intros [|k] H; cbn; constructor; inversion H; subst; auto. Qed.

Ltac crunch := repeat (rewrite ?path_eqb_refl, ?opath_eqb_refl, ?Nat.eqb_refl; cbn [acts fold_left act on_file create set_ent set_attr fsync rename flush settle_names
  name_eqb existsb orb ent dat att nxt cur poss push settle app]).

Ltac red_in D := cbn -[Nat.eqb] in D; repeat (first [rewrite Nat.eqb_refl in D; cbn -[Nat.eqb] in D | match goal with E : (_ =? _) = false |- _ => rewrite E in D; cbn -[Nat.eqb] in D end]).
Ltac neqs i f := assert (NE : (i =? nxt f) = false) by (apply Nat.eqb_neq; lia); assert (NE2 : (i =? S (nxt f)) = false) by (apply Nat.eqb_neq; lia);
  assert (NE3 : (nxt f =? S (nxt f)) = false) by (apply Nat.eqb_neq; lia); assert (NE4 : (S (nxt f) =? nxt f) = false) by (apply Nat.eqb_neq; lia).

Lemma own_session p b a n f k f' :
  wf f -> intact (VReg b a) f -> told_apart now (VReg b a) n -> (safe = true \/ ~ regular n) ->
  plost (acts p f (firstn k (file_ops true true p (VReg b a) n))) f' ->
  recoverable true (VReg b a) f' /\ (regular n -> mirror_regular f').
Proof.
  intros W I (TN & T1 & T2 & T3) HS L.
  assert (DONE : data_certain b (acts p f (firstn k (file_ops true true p (VReg b a) n))) ->
     recoverable true (VReg b a) f' /\ (regular n -> mirror_regular f')).
  { intros D. destruct (data_certain_lost _ _ _ D L) as (a' & V). split; [left; eauto|]. intros _. exists b, a'. exact V. }
  pose proof (intact_data _ _ _ I) as D0.
  destruct n as [|b' a'|kk a'].
  - change (file_ops true true p (VReg b a) VNone) with ([Create p NInc (Snap b); Fsync p NInc; FsyncDir (DInc (parent p))] ++ [Unlink p NMirror]) in *.
    destruct (firstn_last [Create p NInc (Snap b); Fsync p NInc; FsyncDir (DInc (parent p))] (Unlink p NMirror) k) as [E|E]; rewrite E in *.
    + apply DONE. apply data_certain_acts; auto. apply Forall_firstn. repeat constructor.
    + clear E DONE. destruct I as (i & Hi & H1 & H2 & H3). neqs i f. revert L. crunch. intros (L1 & L2 & L3 & _).
      pose proof (proj1 (L1 NMirror)) as M. pose proof (proj1 (L1 NInc)) as C. red_in M. red_in C. rewrite ?path_eqb_refl, ?opath_eqb_refl in M, C. red_in M. red_in C.
      split; [|intros (? & ? & X); discriminate X]. unfold recoverable, view. destruct M as [M|M].
      * apply H1 in M. rewrite M. left. pose proof (proj1 (L2 i)) as D. red_in D. apply H2 in D. rewrite D. eauto.
      * right. rewrite M, C. split; [reflexivity|]. split; [discriminate|]. left. pose proof (proj1 (L2 (nxt f))) as D. red_in D. rewrite D. eauto.
  - destruct (unchanged (VReg b a) (VReg b' a')) eqn:U.
    + apply DONE. apply data_certain_acts; auto. apply Forall_firstn. unfold file_ops. rewrite U. repeat constructor.
    + destruct HS as [HS|HS]; [|exfalso; apply HS; repeat eexists].
      set (l := [Create p NTemp (Reg b'); SetAttr p NTemp a'; Create p NInc (Diff b' b); Fsync p NInc; FsyncDir (DInc (parent p))]) in *.
      assert (FO : file_ops true true p (VReg b a) (VReg b' a') = l ++ [Rename p]) by (unfold file_ops; rewrite U; reflexivity).
      rewrite FO in *. destruct (firstn_last l (Rename p) k) as [E|E]; rewrite E in *.
      * apply DONE. apply data_certain_acts; auto. apply Forall_firstn. repeat constructor.
      * clear E DONE FO. destruct I as (i & Hi & H1 & H2 & H3). neqs i f.
        revert L. unfold l. crunch. rewrite HS. crunch. intros (L1 & L2 & L3 & _).
        pose proof (proj1 (L1 NMirror)) as M. pose proof (proj1 (L1 NInc)) as C. red_in M. red_in C.
        unfold recoverable, mirror_regular, view. destruct M as [M|M].
        -- apply H1 in M. rewrite M. pose proof (proj1 (L2 i)) as D. red_in D. apply H2 in D. rewrite D. split; [left; eauto|eauto].
        -- rewrite M, C. pose proof (proj1 (L2 (nxt f))) as D. red_in D.
           pose proof (proj1 (L2 (S (nxt f)))) as D2. red_in D2. pose proof (proj1 (L3 (nxt f))) as A. red_in A.
           rewrite D, D2. split; [|eauto]. right. split; [reflexivity|]. split.
           ++ intros c X. injection X as _ X. cbn in T1, T2, T3. assert (a <> a') by (apply T3; unfold regular; eauto). destruct A as [A|A]; congruence.
           ++ right. eauto 6.
  - set (l := [Create p NTemp (Special kk); SetAttr p NTemp a'; Create p NInc (Snap b); Fsync p NInc; FsyncDir (DInc (parent p))]) in *.
    assert (FO : file_ops true true p (VReg b a) (VOther kk a') = l ++ [Rename p]) by reflexivity.
    rewrite FO in *. destruct (firstn_last l (Rename p) k) as [E|E]; rewrite E in *.
    + apply DONE. apply data_certain_acts; auto. apply Forall_firstn. repeat constructor.
    + clear E DONE FO. split; [|intros (? & ? & X); discriminate X]. destruct I as (i & Hi & H1 & H2 & H3). neqs i f.
      revert L. unfold l. crunch. intros (L1 & L2 & L3 & _).
      pose proof (proj1 (L1 NMirror)) as M. pose proof (proj1 (L1 NInc)) as C. 
      assert (M' : poss (ent f NMirror) (cur (ent f' NMirror)) \/ cur (ent f' NMirror) = Some (nxt f)) by (destruct safe; red_in M; exact M).
      assert (C' : cur (ent f' NInc) = Some (S (nxt f))) by (destruct safe; red_in C; exact C). clear M C.
      pose proof (proj1 (L2 i)) as D. assert (D' : poss (dat f i) (cur (dat f' i))) by (destruct safe; red_in D; exact D). clear D. apply H2 in D'.
      pose proof (proj1 (L2 (S (nxt f)))) as D. assert (D2 : cur (dat f' (S (nxt f))) = Snap b) by (destruct safe; red_in D; exact D). clear D.
      pose proof (proj1 (L3 (nxt f))) as A. assert (A' : cur (att f' (nxt f)) = now \/ cur (att f' (nxt f)) = a') by (destruct safe; red_in A; exact A). clear A.
      unfold recoverable, view. destruct M' as [M|M]; [apply H1 in M; rewrite M, D'; left; eauto|]. right. rewrite M, C', D2. split; [reflexivity|]. split; [|left; eauto].
      intros c X. injection X as Y X. pose proof (proj1 (L2 (nxt f))) as D.
      assert (D3 : like (Special kk) (cur (dat f' (nxt f)))) by (destruct safe; red_in D; [rewrite D; reflexivity|exact D]).
      rewrite Y in D3. exact D3.
Qed.

(** ** After the session: the new version *)
Lemma holds_settled v f g : settled f g -> holds v f -> holds v g.
Proof.
  intros (A1 & A2 & A3 & _). unfold holds, view. rewrite (proj1 (A1 NMirror)). destruct (cur (ent f NMirror)) as [i|]; [|auto].
  now rewrite (proj1 (A2 i)), (proj1 (A3 i)).
Qed.
Lemma own_new p o n f : wf f -> intact o f -> o <> n -> holds n (acts p f (file_ops true true p o n)).
Proof.
  intros W I Hon. unfold file_ops. destruct (unchanged o n) eqn:U.
  - destruct o as [|b a|]; try discriminate U. destruct n as [|b' a'|]; try discriminate U. apply beq_eq in U. subst b'.
    destruct I as (i & Hi & H1 & H2 & H3). assert (CM : cur (ent f NMirror) = Some i) by (apply H1, W).
    assert (CD : cur (dat f i) = Reg b) by (apply H2, W). neqs i f.
    cbn [temp_ops app attr_of]. crunch. unfold on_file. cbn -[Nat.eqb]. rewrite CM. unfold holds, view. cbn -[Nat.eqb]. rewrite CM. cbn -[Nat.eqb]. rewrite NE, Nat.eqb_refl, CD. reflexivity.
  - assert (X : exists l, Forall (fun x => match x with Create _ NInc _ | Fsync _ NInc | FsyncDir (DInc _) => True | _ => False end) l /\ inc_ops true true p o n = l).
    { eexists. split; [|reflexivity]. destruct o; [| destruct n |]; cbn; repeat constructor. }
    destruct X as (l & Hl & ->).
    assert (K : forall x f0, match x with Create _ NInc _ | Fsync _ NInc | FsyncDir (DInc _) => True | _ => False end ->
       wf f0 -> forall j, cur (ent f0 NTemp) = Some j -> cur (ent (act p f0 x) NTemp) = Some j /\ cur (dat (act p f0 x) j) = cur (dat f0 j) /\ cur (att (act p f0 x) j) = cur (att f0 j)).
    { intros x f0 Hx W0 j Hj. assert (j < nxt f0) by (apply W0 with (n := NTemp); rewrite <- Hj; apply W0).
      destruct x as [q m c|q m a|q m|q|q m|q|[d|d|]| | | |]; try contradiction; cbn [act].
      - destruct m; try contradiction. destruct (path_eqb p q); [|auto]. cbn. replace (j =? nxt f0) with false by (symmetry; apply Nat.eqb_neq; lia). auto.
      - destruct m; try contradiction. destruct (path_eqb p q); [|auto]. unfold on_file. destruct (cur (ent f0 NInc)) as [z|]; [|auto]. cbn. split; [exact Hj|]. destruct (j =? z); auto.
      - destruct (opath_eqb (parent p) d); auto. }
    assert (KK : forall l f0, Forall (fun x => match x with Create _ NInc _ | Fsync _ NInc | FsyncDir (DInc _) => True | _ => False end) l ->
       wf f0 -> forall j, cur (ent f0 NTemp) = Some j -> cur (ent (acts p f0 l) NTemp) = Some j /\ cur (dat (acts p f0 l) j) = cur (dat f0 j) /\ cur (att (acts p f0 l) j) = cur (att f0 j)).
    { clear - K. induction l as [|x l IH]; intros f0 H W0 j Hj; [auto|]. inversion H; subst. change (acts p f0 (x :: l)) with (acts p (act p f0 x) l). destruct (K x f0 H2 W0 j Hj) as (K1 & K2 & K3).
      destruct (IH (act p f0 x) H3 (wf_act p f0 x W0) j K1) as (I1 & I2 & I3). rewrite I2, I3. auto. }
    rewrite !acts_app. destruct n as [|b' a'|k' a'].
    + crunch. unfold holds, view. crunch. reflexivity.
    + set (f1 := acts p f (temp_ops p (VReg b' a'))).
      assert (T : cur (ent f1 NTemp) = Some (nxt f) /\ cur (dat f1 (nxt f)) = Reg b' /\ cur (att f1 (nxt f)) = a') by (unfold f1; cbn [temp_ops]; crunch; auto).
      destruct T as (T1 & T2 & T3). destruct (KK l f1 Hl (wf_acts p _ f W) _ T1) as (K1 & K2 & K3).
      set (f2 := acts p f1 l) in *. crunch. unfold rename. rewrite K1. unfold holds, view. cbn -[Nat.eqb]. unfold flush. destruct safe; cbn -[Nat.eqb]; rewrite ?Nat.eqb_refl; cbn; congruence.
    + set (f1 := acts p f (temp_ops p (VOther k' a'))).
      assert (T : cur (ent f1 NTemp) = Some (nxt f) /\ cur (dat f1 (nxt f)) = Special k' /\ cur (att f1 (nxt f)) = a') by (unfold f1; cbn [temp_ops]; crunch; auto).
      destruct T as (T1 & T2 & T3). destruct (KK l f1 Hl (wf_acts p _ f W) _ T1) as (K1 & K2 & K3).
      set (f2 := acts p f1 l) in *. crunch. unfold rename. rewrite K1. unfold holds, view. cbn -[Nat.eqb]. unfold flush. destruct safe; cbn -[Nat.eqb]; rewrite ?Nat.eqb_refl; cbn; congruence.
Qed.

(** ** Going back *)
Notation rp := (regress_one true true).
Lemma rp_ok s p old : regress_path true true s p old = rp (reach s p) (files s p) p old.
Proof. reflexivity. Qed.

Lemma view_unlink_inc f : view (set_ent NInc None f) NMirror = view f NMirror.
Proof. reflexivity. Qed.
Lemma holds_tail (rch : bool) v f p g : holds v g -> holds v (acts p g (match (if rch then view f NInc else None) with Some _ => [Unlink p NInc] | None => [] end)).
Proof. intros H. destruct (if rch then view f NInc else None); [|exact H]. cbn [acts fold_left act]. rewrite path_eqb_refl. exact H. Qed.
Lemma view_set_attr a i f : cur (ent f NMirror) = Some i -> view (set_attr a i f) NMirror = Some (cur (dat f i), a).
Proof. intros E. unfold view. cbn -[Nat.eqb]. rewrite E, Nat.eqb_refl. reflexivity. Qed.
Lemma made_mirror p c a f g : (g = f \/ g = set_ent NMirror None f) ->
  view (acts p g [Create p NMirror c; SetAttr p NMirror a]) NMirror = Some (c, a).
Proof.
  intros H. cbn [acts fold_left act]. rewrite !path_eqb_refl. unfold on_file, view. cbn -[Nat.eqb]. now rewrite !Nat.eqb_refl.
Qed.
Lemma view_settle_names l f n : view (settle_names l f) n = view f n.
Proof. unfold view. cbn. destruct (existsb (name_eqb n) l); reflexivity. Qed.

Lemma rp_holds rch p o f : wf f -> recoverable rch o f -> holds o (acts p f (rp rch f p o)).
Proof.
  intros W R. unfold regress_one. cbv zeta. rewrite acts_app. apply holds_tail.
  destruct o as [|b a|k a].
  - destruct (view f NMirror) eqn:V; [|exact V]. cbn [acts fold_left act]. rewrite path_eqb_refl. reflexivity.
  - cbn [recoverable] in R.
    assert (NR : (forall d x, view f NMirror <> Some (Reg d, x)) -> restored (if rch then view f NInc else None) (view f NMirror) = b).
    { intros NR. destruct R as [(x & E)|(-> & _ & [(x & E)|(n & x & y & E & E2)])]; [now apply NR in E| |now apply NR in E2].
      rewrite E. reflexivity. }
    assert (MK : forall h, (forall d x, view f NMirror <> Some (Reg d, x)) -> (h = [] \/ h = [Unlink p NMirror]) ->
       holds (VReg b a) (acts p f (h ++ [Create p NMirror (Reg (restored (if rch then view f NInc else None) (view f NMirror))); SetAttr p NMirror a] ++ f_dir true true (DMirror (parent p))))).
    { intros h Hn Hh. rewrite (NR Hn). rewrite !acts_app. cbn [f_dir andb]. change (acts p ?x [FsyncDir (DMirror (parent p))]) with (act p x (FsyncDir (DMirror (parent p)))). unfold act at 1. rewrite opath_eqb_refl.
      unfold holds. rewrite view_settle_names. apply made_mirror with (f := f). destruct Hh as [->| ->]; [left; reflexivity|right]. cbn [acts fold_left act]. now rewrite path_eqb_refl. }
    destruct (view f NMirror) as [[[d|d|d1 d2| |kk] a']|] eqn:V;
      try (apply (MK [Unlink p NMirror]); [intros; discriminate|auto]); [|apply (MK []); [intros; discriminate|auto]].
    destruct (N.eqb_spec a' a) as [->|Ha].
    + unfold holds. cbn [acts fold_left]. rewrite V. destruct R as [(x & E)|(_ & E & _)]; [|now specialize (E d)]. congruence.
    + rewrite acts_app. cbn [f_dir andb]. change (acts p ?x [FsyncDir (DMirror (parent p))]) with (act p x (FsyncDir (DMirror (parent p)))). unfold act at 1. rewrite opath_eqb_refl.
      unfold holds. rewrite view_settle_names. destruct (beq d b) eqn:B.
      * apply beq_eq in B. subst d. cbn [acts fold_left act]. rewrite path_eqb_refl. unfold on_file. unfold view in V. destruct (cur (ent f NMirror)) as [i|] eqn:E; [|discriminate]. injection V as V _.
        rewrite view_set_attr by exact E. now rewrite V.
      * assert (RB : restored (if rch then view f NInc else None) (Some (Reg d, a')) = b).
        { destruct R as [(x & E)|(-> & _ & [(x & E)|(n & x & y & E & E2)])].
          - injection E as E _. rewrite E, beq_refl in B. discriminate B.
          - rewrite E. reflexivity.
          - injection E2 as <- _. rewrite E. cbn. now rewrite beq_refl. }
        rewrite RB. cbn [fsync_with_dir f_file f_dir andb app]. crunch. unfold on_file. crunch. unfold rename, on_file. cbn -[Nat.eqb]. unfold view. unfold flush. destruct safe; cbn -[Nat.eqb]; rewrite ?Nat.eqb_refl; reflexivity.
  - assert (MK : forall h, (h = [] \/ h = [Unlink p NMirror]) -> holds (VOther k a) (acts p f (h ++ [Create p NMirror (Special k); SetAttr p NMirror a]))).
    { intros h Hh. rewrite acts_app. apply made_mirror with (f := f). destruct Hh as [->| ->]; [left; reflexivity|right]. cbn [acts fold_left act]. now rewrite path_eqb_refl. }
    destruct (view f NMirror) as [[[d|d|d1 d2| |kk] a']|] eqn:V; try (apply (MK [Unlink p NMirror]); auto); [|apply (MK []); auto].
    destruct (N.eqb_spec kk k) as [->|]; [|apply (MK [Unlink p NMirror]); auto]. destruct (N.eqb_spec a' a) as [->|]; [exact V|apply (MK [Unlink p NMirror]); auto].
Qed.

(** ** Interrupted while going back *)
Lemma on_disk_wf f : on_disk f -> wf f.
Proof.
  intros (H1 & H2 & H3 & H4). repeat split; try (intros x; red; now apply H1 || now apply H2 || now apply H3).
  intros n i H. apply H1 in H. now apply (H4 n).
Qed.
Lemma view_kept f f' n m : on_disk f ->
  cur (ent f' n) = cur (ent f m) ->
  (forall i, cur (ent f m) = Some i -> cur (dat f' i) = cur (dat f i) /\ cur (att f' i) = cur (att f i)) -> view f' n = view f m.
Proof. intros _ E H. unfold view. rewrite E. destruct (cur (ent f m)) as [i|] eqn:X; [|reflexivity]. destruct (H i eq_refl) as [-> ->]. reflexivity. Qed.

Lemma rp_prefix rch p b a f k f' :
  on_disk f -> recoverable rch (VReg b a) f -> mirror_regular f ->
  plost (acts p f (firstn k (rp rch f p (VReg b a)))) f' ->
  recoverable rch (VReg b a) f' /\ mirror_regular f'.
Proof.
  intros OD R (d & a' & V) L. pose proof (on_disk_wf _ OD) as W.
  assert (DONE : data_certain b (acts p f (firstn k (rp rch f p (VReg b a)))) -> recoverable rch (VReg b a) f' /\ mirror_regular f').
  { intros D. destruct (data_certain_lost _ _ _ D L) as (x & E). split; [left; eauto|exists b, x; exact E]. }
  assert (MI : exists i, i < nxt f /\ cur (ent f NMirror) = Some i /\ cur (dat f i) = Reg d /\ cur (att f i) = a').
  { unfold view in V. destruct (cur (ent f NMirror)) as [i|] eqn:E; [|discriminate]. injection V as V1 V2. exists i. destruct OD as (_ & _ & _ & X). split; [eapply X; exact E|auto]. }
  destruct MI as (i & Hi & CM & CD & CA).
  assert (DC : d = b -> data_certain b f).
  { intros ->. exists i. destruct OD as (O1 & O2 & _). split; [exact Hi|]. split; intros x Hx; [apply O1 in Hx; congruence|apply O2 in Hx; congruence]. }
  revert L DONE. unfold regress_one. cbv zeta. rewrite V. set (inc := if rch then view f NInc else None).
  set (tail := match inc with Some _ => [Unlink p NInc] | None => [] end). assert (HT : Forall harmless tail) by (unfold tail; destruct inc; repeat constructor).
  destruct (N.eqb_spec a' a) as [->|Ha].
  { intros L DONE. apply DONE. apply data_certain_acts; [|exact W|]; [apply Forall_firstn; exact HT|]. apply DC. destruct R as [(x & E)|(_ & E & _)]; [congruence|now apply E in V]. }
  destruct (beq d b) eqn:B.
  { intros L DONE. apply DONE. apply data_certain_acts; [|exact W|]; [apply Forall_firstn; repeat constructor; exact HT|]. apply DC. now apply beq_eq. }
  assert (RB : restored inc (Some (Reg d, a')) = b /\ rch = true).
  { unfold inc. destruct R as [(x & E)|(-> & _ & [(x & E)|(n & x & y & E & E2)])].
    - rewrite V in E. injection E as E _. rewrite E, beq_refl in B. discriminate B.
    - rewrite E. auto.
    - rewrite V in E2. injection E2 as <- _. rewrite E. cbn. now rewrite beq_refl. }
  destruct RB as [-> Hr]. cbn [fsync_with_dir f_file f_dir andb app].
  neqs i f. destruct OD as (O1 & O2 & O3 & O4).
  set (l := [Create p NTemp (Reg b); Fsync p NTemp; FsyncDir (DMirror (parent p)); SetAttr p NTemp a; Rename p; FsyncDir (DMirror (parent p))]).
  change (Create p NTemp (Reg b) :: Fsync p NTemp :: FsyncDir (DMirror (parent p)) :: SetAttr p NTemp a :: Rename p :: FsyncDir (DMirror (parent p)) :: tail) with (l ++ tail).
  rewrite firstn_app. change (length l) with 6.
  destruct (le_lt_dec 6 k) as [Hk|Hk].
  - rewrite (firstn_all2 l) by exact Hk. intros L DONE. apply DONE. rewrite acts_app. apply data_certain_acts; [apply Forall_firstn, HT|apply wf_acts, W|].
    exists (nxt f). unfold l. crunch. unfold on_file. crunch. unfold rename. crunch. unfold flush. destruct safe; cbn -[Nat.eqb]; rewrite ?Nat.eqb_refl; cbn -[Nat.eqb]; (split; [lia|split; auto]).
  - replace (k - 6) with 0 by lia. cbn [firstn]. rewrite app_nil_r. intros L _.
    assert (K : forall j, j < nxt f -> cur (dat f' j) = cur (dat f j) /\ cur (att f' j) = cur (att f j)).
    { intros j Hj. assert (NJ : (j =? nxt f) = false) by (apply Nat.eqb_neq; lia).
      destruct L as (_ & L2 & L3 & _). pose proof (proj1 (L2 j)) as X. pose proof (proj1 (L3 j)) as Y.
      assert (poss (dat f j) (cur (dat f' j)) /\ poss (att f j) (cur (att f' j))) as [Z1 Z2]; [|split; [now apply O2|now apply O3]].
      revert X Y. clear - NJ Hk. unfold l. destruct k as [|[|[|[|[|[|k]]]]]]; [| | | | | |lia]; cbn [firstn]; crunch; unfold on_file; crunch; unfold rename; crunch; unfold flush; try destruct safe;
        cbn -[Nat.eqb]; rewrite ?NJ; auto. }
    assert (CI : cur (ent f' NInc) = cur (ent f NInc)).
    { apply O1. destruct L as (L1 & _ & _ & _). pose proof (proj1 (L1 NInc)) as X. revert X. clear - Hk. unfold l.
      destruct k as [|[|[|[|[|[|k]]]]]]; [| | | | | |lia]; cbn [firstn]; crunch; unfold on_file; crunch; unfold rename; crunch; unfold flush; try destruct safe; cbn -[Nat.eqb]; auto. }
    assert (VI : view f' NInc = view f NInc).
    { unfold view. rewrite CI. destruct (cur (ent f NInc)) as [j|] eqn:E; [|reflexivity]. destruct (K j) as [-> ->]; [eapply O4; exact E|reflexivity]. }
    assert (CMM : cur (ent f' NMirror) = Some i \/ (cur (ent f' NMirror) = Some (nxt f) /\ cur (dat f' (nxt f)) = Reg b)).
    { destruct L as (L1 & L2 & _ & _). pose proof (proj1 (L1 NMirror)) as X. pose proof (proj1 (L2 (nxt f))) as Y. revert X Y. clear - Hk O1 CM. unfold l.
      destruct k as [|[|[|[|[|[|k]]]]]]; [| | | | | |lia]; cbn [firstn]; crunch; unfold on_file; crunch; unfold rename; crunch; unfold flush; try destruct safe; cbn -[Nat.eqb]; rewrite ?Nat.eqb_refl; cbn -[Nat.eqb];
        intros X Y; try (left; rewrite <- CM; apply O1; exact X); try (left; rewrite <- CM; exact X);
        destruct X as [X|X]; first [left; rewrite <- CM; apply O1; exact X|left; rewrite <- CM; exact X|right; split; [exact X|exact Y]]. }
    unfold recoverable, mirror_regular. destruct CMM as [C|[C D]].
    + assert (VM : view f' NMirror = view f NMirror) by (unfold view; rewrite C, CM; destruct (K i Hi) as [-> ->]; reflexivity).
      rewrite VM, VI. split; [exact R|]. exists d, a'. exact V.
    + unfold view at 1 4. rewrite C, D. split; [left; eauto|]. exists b, (cur (att f' (nxt f))). unfold view. now rewrite C, D.
Qed.
End P.
