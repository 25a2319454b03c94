(** * C35: the metadata of a backup says what was really written *)
From Coq Require Import List ZArith Bool Ascii Lia Sorted.
From Verif Require Import Base M_Iter L_Iter L_Tree P_Iter M_CCPP S_CCPP.
Import List ListNotations.

Definition init_entry (p : cpair) : centry := mk_centry (pidx p) (fst p) (snd p) false 0 None.
Definition app_op (o : op) (e : centry) : centry :=
  match o with
  | Pull _ => e
  | FlagSuccess i => if idx_eqb (e_index e) i then set_success 1 e else e
  | FlagDeleted i => if idx_eqb (e_index e) i then set_success 2 e else e
  | FlagChanged i => if idx_eqb (e_index e) i then set_changed e else e
  | SetInc i r => if idx_eqb (e_index e) i then set_inc r e else e
  | UpdateHash i h =>
      if idx_eqb (e_index e) i
      then match e_src e with Some r => set_src e (Some (set_sha r h)) | None => e end
      else e
  end.
(** the entry of a pair after the operations [h] *)
Definition ent (h : list op) (p : cpair) : centry := fold_left (fun e o => app_op o e) h (init_entry p).

Lemma app_op_index o e : e_index (app_op o e) = e_index e.
Proof.
  destruct o; cbn; auto; destruct (idx_eqb _ _); auto. destruct (e_src e); auto.
Qed.
Lemma ent_index h p : e_index (ent h p) = pidx p.
Proof.
  unfold ent. change (pidx p) with (e_index (init_entry p)). generalize (init_entry p).
  induction h as [|o h IH]; intros e; cbn; auto. now rewrite IH, app_op_index.
Qed.
Lemma ent_snoc h o p : ent (h ++ [o]) p = app_op o (ent h p).
Proof. unfold ent. now rewrite fold_left_app. Qed.
Lemma app_op_other o e : (forall i, about o = Some i -> e_index e <> i) -> app_op o e = e.
Proof.
  intros H. destruct o; cbn in *; auto; specialize (H _ eq_refl);
    apply idx_eqb_neq in H; now rewrite H.
Qed.
Lemma ent_none h p : (forall o i, In o h -> about o = Some i -> pidx p <> i) -> ent h p = init_entry p.
Proof.
  unfold ent. intros H.
  assert (G : forall e, e_index e = pidx p -> fold_left (fun e o => app_op o e) h e = e).
  { induction h as [|o h IH]; intros e E; cbn; auto.
    rewrite app_op_other. { apply IH; auto. intros o' i' H1 H2. exact (H o' i' (or_intror H1) H2). }
    intros i Hi. rewrite E. exact (H o i (or_introl eq_refl) Hi). }
  now apply G.
Qed.

Lemma pulled_app a b : pulled (a ++ b) = pulled a ++ pulled b.
Proof. induction a as [|[]]; cbn; auto. now rewrite IHa. Qed.

(** the state after [h], of which the first [k] pairs have left the cache *)
Record inv (fstat : bool) (h : list op) (k : nat) (s : ccpp) : Prop := {
  i_k : k <= length (pulled h);
  i_ind : c_indices s = map pidx (skipn k (pulled h));
  i_dict : c_dict s = map (ent h) (skipn k (pulled h));
  i_out : c_out s = flat_map (post_process fstat) (map (ent h) (firstn k (pulled h)));
  i_ops : forall o i, In o h -> about o = Some i -> In i (map pidx (pulled h)) }.

Lemma skipn_cons {T} k (l : list T) : k < length l -> exists x, skipn k l = x :: skipn (S k) l /\ firstn (S k) l = firstn k l ++ [x] /\ nth_error l k = Some x.
Proof.
  revert k. induction l as [|y l IH]; intros k H; cbn in *; [lia|]. destruct k; cbn.
  - exists y; auto.
  - destruct (IH k) as (x & E & E' & E''); [lia|]. exists x. rewrite E. cbn in E'. rewrite E'. auto.
Qed.

Lemma ddel_head l i es : (forall e, In e es -> e_index e <> i) ->
  e_index l = i -> ddel (l :: es) i = es.
Proof.
  intros H E. unfold ddel. cbn. rewrite <- E, idx_eqb_refl. cbn.
  induction es as [|e es IH]; auto. cbn.
  assert (N : idx_eqb (e_index e) (e_index l) = false) by (apply idx_eqb_neq; rewrite E; apply H; now left).
  rewrite N. cbn. f_equal. apply IH. intros; apply H; now right.
Qed.

Lemma nodup_skip {T} k (l : list T) : NoDup l -> NoDup (skipn k l).
Proof. revert k; induction l; intros [|k] H; cbn; auto. inversion H; auto. Qed.
Lemma nodup_split {T} k (l : list T) x : NoDup l -> In x (firstn k l) -> In x (skipn k l) -> False.
Proof.
  intros N A B. rewrite <- (firstn_skipn k l) in N.
  revert A B N. induction (firstn k l); cbn; [tauto|]. intros [<-|A] B N; inversion N; subst; auto.
  apply H1. apply in_or_app; auto.
Qed.

Lemma dget_head l es i : e_index l = i -> dget (l :: es) i = Some l.
Proof. intros <-. cbn. now rewrite idx_eqb_refl. Qed.

Lemma shorten_inv fstat h k s s' : NoDup (map pidx (pulled h)) -> inv fstat h k s -> shorten fstat s = Some s' ->
  inv fstat h (S k) s' /\ exists p, nth_error (pulled h) k = Some p /\ update_parents (c_parents s) (ent h p) = Some (c_parents s').
Proof.
  intros N [Ik Ii Id Io Iop] H. unfold shorten in H. rewrite Ii in H.
  destruct (Nat.eq_dec k (length (pulled h))) as [->|Hk].
  { rewrite skipn_all in H. discriminate. }
  destruct (skipn_cons k (pulled h)) as (p & E & E' & En); [lia|]. rewrite E in *. cbn [map] in H.
  rewrite Id in H. cbn [map] in H. rewrite (dget_head (ent h p) _ (pidx p)) in H by apply ent_index.
  destruct (update_parents _ _) as [pl|] eqn:U; [|discriminate]. injection H as <-.
  split; [|exists p; auto]. constructor; cbn; auto.
  - lia.
  - apply ddel_head; [|apply ent_index]. intros e He Hi. apply in_map_iff in He as (q & <- & Hq).
    rewrite ent_index in Hi.
    apply (nodup_skip k) in N. rewrite skipn_map, E in N. cbn in N. inversion N; subst. apply H1.
    rewrite <- Hi. now apply in_map.
  - rewrite Io. change (match pulled h with [] => [] | a :: l => a :: firstn k l end) with (firstn (S k) (pulled h)).
    rewrite E', map_app, flat_map_app. cbn. now rewrite app_nil_r.
Qed.

Lemma dset_new d x : (forall e, In e d -> e_index e <> e_index x) -> dset d x = d ++ [x].
Proof.
  induction d as [|e d IH]; intros H; cbn; auto.
  assert (N : idx_eqb (e_index e) (e_index x) = false) by (apply idx_eqb_neq, H; now left).
  rewrite N, IH; auto. intros; apply H; now right.
Qed.

Lemma dget_in d i e : dget d i = Some e -> In e d /\ e_index e = i.
Proof. intros H. apply find_some in H as [H1 H2]. split; auto. now apply idx_eqb_eq. Qed.

(** one operation *)
Lemma dmap_ent h k o i f : NoDup (map pidx (pulled h)) -> about o = Some i ->
  (forall p, In p (skipn k (pulled h)) -> pidx p = i -> app_op o (ent h p) = f (ent h p)) ->
  dmap i f (map (ent h) (skipn k (pulled h))) = map (ent (h ++ [o])) (skipn k (pulled h)).
Proof.
  intros N A F. unfold dmap. rewrite map_map. apply map_ext_in. intros p Hp.
  rewrite ent_snoc. destruct (idx_eqb (e_index (ent h p)) i) eqn:E.
  - apply idx_eqb_eq in E. rewrite ent_index in E. symmetry. now apply F.
  - symmetry. apply app_op_other. intros j Hj. assert (j = i) as -> by congruence. now apply idx_eqb_neq.
Qed.

Lemma first_same h k o i : NoDup (map pidx (pulled h)) -> about o = Some i ->
  In i (map pidx (skipn k (pulled h))) ->
  map (ent (h ++ [o])) (firstn k (pulled h)) = map (ent h) (firstn k (pulled h)).
Proof.
  intros N A I. apply map_ext_in. intros p Hp. rewrite ent_snoc. apply app_op_other.
  intros j Hj. assert (j = i) as -> by congruence. rewrite ent_index. intros E.
  apply (nodup_split k (map pidx (pulled h)) i N).
  - rewrite firstn_map. rewrite <- E. now apply in_map.
  - now rewrite skipn_map.
Qed.

Lemma access_inv fstat h k s o i d : NoDup (map pidx (pulled h)) -> inv fstat h k s ->
  about o = Some i -> In i (map pidx (skipn k (pulled h))) ->
  d = map (ent (h ++ [o])) (skipn k (pulled h)) ->
  inv fstat (h ++ [o]) k (mk_ccpp d (c_indices s) (c_parents s) (c_out s)).
Proof.
  intros N [Ik Ii Id Io Iop] A I ->.
  assert (P : pulled (h ++ [o]) = pulled h) by (rewrite pulled_app; destruct o; try discriminate; cbn; now rewrite app_nil_r).
  constructor; cbn; rewrite P; auto.
  - now rewrite (first_same h k o i).
  - intros o' j [Ho|[<-|[]]]%in_app_iff Hj; [eauto|]. assert (j = i) as -> by congruence.
    apply in_map_iff in I as (p & <- & Hp). apply in_map. rewrite <- (firstn_skipn k). apply in_or_app; auto.
Qed.

Lemma dget_cached h k i e : dget (map (ent h) (skipn k (pulled h))) i = Some e ->
  exists p, In p (skipn k (pulled h)) /\ pidx p = i /\ e = ent h p.
Proof.
  intros H. apply dget_in in H as [H E]. apply in_map_iff in H as (p & <- & Hp). rewrite ent_index in E. eauto.
Qed.

Lemma modify_inv fstat h k s s' o i f : NoDup (map pidx (pulled h)) -> inv fstat h k s ->
  about o = Some i -> (forall e, e_index e = i -> app_op o e = f e) ->
  modify f i s = Some s' -> inv fstat (h ++ [o]) k s' /\ c_parents s' = c_parents s.
Proof.
  intros N I A F H. unfold modify, in_cache in H. destruct (dget (c_dict s) i) as [e|] eqn:D; [|discriminate].
  injection H as <-. split; auto. rewrite (i_dict _ _ _ _ I) in D.
  destruct (dget_cached _ _ _ _ D) as (p & Hp & Ep & _).
  eapply access_inv; eauto.
  - rewrite <- Ep. now apply in_map.
  - rewrite (i_dict _ _ _ _ I). eapply dmap_ent; eauto.
    intros q _ Hq. apply F. now rewrite ent_index.
Qed.

Lemma update_hash_inv fstat h k s s' i x : NoDup (map pidx (pulled h)) -> inv fstat h k s ->
  option_map fst (update_hash i x s) = Some s' -> inv fstat (h ++ [UpdateHash i x]) k s' /\ c_parents s' = c_parents s.
Proof.
  intros N I H. unfold update_hash in H. destruct (dget (c_dict s) i) as [e|] eqn:D; [|discriminate].
  destruct (c_indices s) as [|f fs] eqn:C; [discriminate|]. destruct (idx_ltb i f); [discriminate|].
  destruct (e_src e) as [r|] eqn:S; [|discriminate]. cbn [option_map fst] in H. injection H as <-. split; auto.
  rewrite (i_dict _ _ _ _ I) in D. destruct (dget_cached _ _ _ _ D) as (p & Hp & Ep & ->).
  rewrite <- C. eapply access_inv; eauto; [reflexivity| |].
  - rewrite <- Ep. now apply in_map.
  - rewrite (i_dict _ _ _ _ I). eapply dmap_ent; eauto.
    intros q Hq Eq. assert (q = p) as ->.
    { apply (nodup_skip k) in N. rewrite skipn_map in N.
      clear -N Hp Hq Ep Eq. revert N Hp Hq. induction (skipn k (pulled h)) as [|y l IH]; cbn; [tauto|].
      intros N. inversion N; subst. intros [->|Hp] [->|Hq]; auto.
      - exfalso. apply H1. rewrite <- Eq. now apply in_map.
      - exfalso. apply H1. rewrite Eq. now apply in_map. }
    cbn. rewrite ent_index, Ep, idx_eqb_refl. now rewrite S.
Qed.

Definition pair_ok (p : cpair) : Prop := pair_index p = Some (pidx p).
Lemma pair_index_pidx p i : pair_index p = Some i -> (forall s d, p = (Some s, Some d) -> q_index s = q_index d) -> i = pidx p.
Proof.
  destruct p as [[s|] [d|]]; cbn; intros H E.
  - specialize (E _ _ eq_refl). destruct (q_index s) eqn:Q; congruence.
  - destruct (q_index s); congruence.
  - congruence.
  - discriminate.
Qed.

Lemma pull_inv fstat size h k s s' p : NoDup (map pidx (pulled h ++ [p])) ->
  (forall s d, p = (Some s, Some d) -> q_index s = q_index d) -> inv fstat h k s ->
  pull fstat size p s = Some s' ->
  let s1 := mk_ccpp (dset (c_dict s) (mk_centry (pidx p) (fst p) (snd p) false 0 None))
                        (c_indices s ++ [pidx p]) (c_parents s) (c_out s) in
  inv fstat (h ++ [Pull p]) k s1 /\
  ((length (c_indices s1) <= size /\ s' = s1) \/ (size < length (c_indices s1) /\ shorten fstat s1 = Some s')).
Proof.
  intros N E I H s1. unfold pull in H. destruct (pair_index p) as [i|] eqn:P; [|discriminate].
  assert (i = pidx p) as -> by now apply pair_index_pidx. fold s1 in H.
  assert (Fresh : ~ In (pidx p) (map pidx (pulled h))).
  { rewrite map_app in N. cbn in N. intros B. apply NoDup_remove_2 in N. rewrite app_nil_r in N. auto. }
  split.
  - destruct I as [Ik Ii Id Io Iop].
    assert (PP : pulled (h ++ [Pull p]) = pulled h ++ [p]) by now rewrite pulled_app.
    assert (SK : skipn k (pulled h ++ [p]) = skipn k (pulled h) ++ [p]).
    { rewrite skipn_app. replace (k - length (pulled h)) with 0 by lia. reflexivity. }
    assert (FK : firstn k (pulled h ++ [p]) = firstn k (pulled h)).
    { rewrite firstn_app. replace (k - length (pulled h)) with 0 by lia. cbn. now rewrite app_nil_r. }
    assert (EN : forall q, ent (h ++ [Pull p]) q = ent h q) by (intros; now rewrite ent_snoc).
    constructor; subst s1; cbn [c_dict c_indices c_out]; rewrite ?PP, ?SK, ?FK.
    + rewrite app_length. lia.
    + now rewrite map_app, Ii.
    + rewrite dset_new.
      * rewrite Id, map_app. cbn [map]. f_equal. apply map_ext. intros; now rewrite EN.
        f_equal. rewrite EN, ent_none; auto. intros o i Ho Hi Q. apply Fresh. rewrite Q. eauto.
      * rewrite Id. cbn [e_index]. intros e He Hi. apply in_map_iff in He as (q & Eq & Hq). subst e.
        apply Fresh. rewrite ent_index in Hi. rewrite <- Hi.
        apply in_map. rewrite <- (firstn_skipn k). apply in_or_app; auto.
    + rewrite Io. f_equal. apply map_ext. intros; now rewrite EN.
    + intros o i [Ho|[<-|[]]]%in_app_iff Hi; [|discriminate]. rewrite map_app. apply in_or_app. left. eauto.
  - destruct (Nat.ltb_spec size (length (c_indices s1))); [right; auto|left]. split; auto. congruence.
Qed.

Definition same_index (l : list cpair) : Prop := forall s d, In (Some s, Some d) l -> q_index s = q_index d.

Lemma shorten_app fstat h k s s' : NoDup (map pidx (pulled h)) -> inv fstat h k s -> shorten fstat s = Some s' -> inv fstat h (S k) s'.
Proof. intros N I H. now destruct (shorten_inv _ _ _ _ _ N I H). Qed.

Lemma nodup_pre {T} (a b : list T) : NoDup (a ++ b) -> NoDup a.
Proof. induction a; cbn; intros N; constructor; inversion N; subst; auto. intros A. apply H1, in_or_app. auto. Qed.

Lemma inv_len fstat h k s : inv fstat h k s -> length (c_indices s) = length (pulled h) - k.
Proof. intros I. now rewrite (i_ind _ _ _ _ I), map_length, skipn_length. Qed.

Lemma step_inv fstat size h o s s' : NoDup (map pidx (pulled (h ++ [o]))) -> same_index (pulled (h ++ [o])) ->
  inv fstat h (length (pulled h) - size) s -> step fstat size o s = Some s' ->
  inv fstat (h ++ [o]) (length (pulled (h ++ [o])) - size) s'.
Proof.
  intros N E I H.
  assert (N0 : NoDup (map pidx (pulled h))).
  { rewrite pulled_app, map_app in N. eapply nodup_pre; eauto. }
  destruct o as [p|i|i|i|i r|i x]; cbn [step] in H.
  - rewrite pulled_app in N, E. cbn [pulled] in N, E.
    assert (E' : forall s d, p = (Some s, Some d) -> q_index s = q_index d).
    { intros a b ->. apply E. apply in_or_app. right. now left. }
    destruct (pull_inv _ _ _ _ _ _ _ N E' I H) as [I1 [[L ->]|[L SH]]].
    + assert (Q : length (pulled (h ++ [Pull p])) - size = length (pulled h) - size).
      { rewrite pulled_app, app_length. cbn [pulled length]. pose proof (inv_len _ _ _ _ I1) as Q.
        rewrite Q in L. rewrite pulled_app, app_length in L. cbn [pulled length] in L. lia. }
      rewrite Q. exact I1.
    + assert (Q : length (pulled (h ++ [Pull p])) - size = S (length (pulled h) - size)).
      { rewrite pulled_app, app_length. cbn [pulled length]. pose proof (inv_len _ _ _ _ I1) as Q.
        rewrite Q in L. rewrite pulled_app, app_length in L. cbn [pulled length] in L. lia. }
      rewrite Q. eapply shorten_app; eauto. rewrite pulled_app. exact N.
  - refine (_ (modify_inv fstat h _ s s' (FlagSuccess i) i _ N0 I eq_refl _ H)).
    + intros [I1 _]. rewrite pulled_app. cbn [pulled]. rewrite app_nil_r. exact I1.
    + intros e <-. cbn. now rewrite idx_eqb_refl.
  - refine (_ (modify_inv fstat h _ s s' (FlagDeleted i) i _ N0 I eq_refl _ H)).
    + intros [I1 _]. rewrite pulled_app. cbn [pulled]. rewrite app_nil_r. exact I1.
    + intros e <-. cbn. now rewrite idx_eqb_refl.
  - refine (_ (modify_inv fstat h _ s s' (FlagChanged i) i _ N0 I eq_refl _ H)).
    + intros [I1 _]. rewrite pulled_app. cbn [pulled]. rewrite app_nil_r. exact I1.
    + intros e <-. cbn. now rewrite idx_eqb_refl.
  - refine (_ (modify_inv fstat h _ s s' (SetInc i r) i _ N0 I eq_refl _ H)).
    + intros [I1 _]. rewrite pulled_app. cbn [pulled]. rewrite app_nil_r. exact I1.
    + intros e <-. cbn. now rewrite idx_eqb_refl.
  - destruct (update_hash_inv fstat h _ s s' i x N0 I H) as [I1 _].
    rewrite pulled_app. cbn [pulled]. rewrite app_nil_r. exact I1.
Qed.

Lemma steps_inv fstat size l : forall h s s', NoDup (map pidx (pulled (h ++ l))) -> same_index (pulled (h ++ l)) ->
  inv fstat h (length (pulled h) - size) s -> steps fstat size l s = Some s' ->
  inv fstat (h ++ l) (length (pulled (h ++ l)) - size) s'.
Proof.
  induction l as [|o l IH]; intros h s s' N E I H; cbn in H.
  - injection H as <-. now rewrite app_nil_r.
  - destruct (step _ _ _ _) as [s1|] eqn:S; [|discriminate].
    assert (A : h ++ o :: l = (h ++ [o]) ++ l) by now rewrite <- app_assoc.
    rewrite A in *. eapply IH; eauto. eapply step_inv; eauto.
    + rewrite pulled_app, map_app in N. eapply nodup_pre; eauto.
    + intros a b Hab. apply E. rewrite pulled_app. apply in_or_app; auto.
Qed.

Lemma drain_inv fstat n : forall h k s s', NoDup (map pidx (pulled h)) -> inv fstat h k s ->
  length (c_indices s) <= n -> drain fstat n s = Some s' -> inv fstat h (length (pulled h)) s'.
Proof.
  induction n as [|n IH]; intros h k s s' N I L H; cbn in H.
  - injection H as <-. rewrite (inv_len _ _ _ _ I) in L. pose proof (i_k _ _ _ _ I).
    assert (k = length (pulled h)) as <- by lia. auto.
  - destruct (c_indices s) as [|i is] eqn:C.
    + injection H as <-. pose proof (inv_len _ _ _ _ I) as Q. rewrite C in Q. cbn in Q.
      pose proof (i_k _ _ _ _ I). assert (k = length (pulled h)) as <- by lia. auto.
    + destruct (shorten fstat s) as [s1|] eqn:S; [|discriminate].
      pose proof (shorten_app _ _ _ _ _ N I S) as I1. eapply IH; eauto.
      pose proof (inv_len _ _ _ _ I) as Q. rewrite C in Q. rewrite (inv_len _ _ _ _ I1). cbn in L, Q. lia.
Qed.

Lemma inv_init fstat size : inv fstat [] (length (pulled []) - size) ccpp_init.
Proof. constructor; cbn; auto; tauto. Qed.

(** All that leaves the cache, whatever its size: each pair is processed once, in the
    order of the listing, with all that has been reported about it *)
Lemma backup_events fstat size ops events :
  NoDup (map pidx (pulled ops)) -> same_index (pulled ops) ->
  backup fstat size ops = Some events ->
  events = flat_map (post_process fstat) (map (ent ops) (pulled ops)).
Proof.
  intros N E H. unfold backup in H. destruct (steps _ _ _ _) as [s|] eqn:S; [|discriminate].
  apply (steps_inv fstat size ops [] _ _ N E (inv_init fstat size)) in S. cbn [app] in S.
  destruct (close fstat s) as [s'|] eqn:C; [|discriminate]. injection H as <-.
  unfold close in C. eapply drain_inv in C; eauto. rewrite (i_out _ _ _ _ C).
  now rewrite firstn_all.
Qed.

(** ** the entry of a pair, by the specification *)
Definition num (o : outcome) : nat := match o with Untouched => 0 | Updated => 1 | Deleted => 2 end.
Definition base_src (p : cpair) (o : option bytes) : option crorp :=
  match fst p, o with Some r, Some h => Some (set_sha r h) | s, _ => s end.
Lemma idx_eqb_sym i j : idx_eqb i j = idx_eqb j i.
Proof.
  destruct (idx_eqb j i) eqn:E; [apply idx_eqb_eq in E; subst; apply idx_eqb_refl|].
  apply idx_eqb_neq. apply idx_eqb_neq in E. auto.
Qed.
Lemma ent_spec_gen p ops : forall e oc hs ch, e_index e = pidx p -> e_success e = num oc ->
  e_dst e = snd p -> e_src e = base_src p hs -> e_changed e = ch ->
  let e' := fold_left (fun e o => app_op o e) ops e in
  e_success e' = num (outcome_of (pidx p) ops oc) /\ e_dst e' = snd p /\
  e_src e' = base_src p (hash_of (pidx p) ops hs) /\
  e_changed e' = ch || reported_changed (pidx p) ops.
Proof.
  induction ops as [|o ops IH]; intros e oc hs ch Ei Es Ed Er Ec; cbn zeta.
  - cbn. rewrite orb_false_r. auto.
  - cbn [fold_left]. destruct o as [q|i|i|i|i r|i x]; cbn [outcome_of hash_of reported_changed app_op].
    + apply IH; auto.
    + rewrite Ei. destruct (idx_eqb (pidx p) i) eqn:Q; apply IH; auto.
    + rewrite Ei. destruct (idx_eqb (pidx p) i) eqn:Q; apply IH; auto.
    + rewrite Ei. destruct (idx_eqb (pidx p) i) eqn:Q.
      * cbn [orb]. replace (ch || true) with true by (now destruct ch).
        destruct (IH (set_changed e) oc hs true) as (A & B & C & D); auto.
      * cbn [orb]. apply IH; auto.
    + rewrite Ei. destruct (idx_eqb (pidx p) i) eqn:Q; apply IH; auto.
    + rewrite Ei. destruct (idx_eqb (pidx p) i) eqn:Q; [|apply IH; auto].
      unfold base_src in Er. destruct (fst p) as [r|] eqn:F.
      * assert (exists r', e_src e = Some r' /\ set_sha r' x = set_sha r x) as (r' & R1 & R2).
        { rewrite Er. destruct hs; eexists; split; reflexivity. }
        rewrite R1, R2. apply IH; auto. unfold base_src. now rewrite F.
      * rewrite Er. apply IH; auto. rewrite Er. unfold base_src. rewrite F. reflexivity.
Qed.
Lemma ent_spec ops p :
  e_success (ent ops p) = num (outcome_of (pidx p) ops Untouched) /\ e_dst (ent ops p) = snd p /\
  e_src (ent ops p) = with_hash ops p /\ e_changed (ent ops p) = reported_changed (pidx p) ops.
Proof.
  apply (ent_spec_gen p ops (init_entry p) Untouched None false); auto.
  unfold base_src. cbn. destruct (fst p); auto.
Qed.

Lemma written_app a b : written (a ++ b) = written a ++ written b.
Proof. induction a as [|[]]; cbn; auto. now rewrite IHa. Qed.
Lemma written_post fstat e : written (post_process fstat e) =
  match e_success e with O => existing (e_dst e) | S O => existing (e_src e) | _ => [] end.
Proof.
  unfold post_process. cbv zeta. rewrite !written_app.
  assert (W : forall o, written (match o with Some r => if q_there r then [Write r] else [] | None => [] end) = existing o).
  { intros [r|]; cbn; auto. now destruct (q_there r). }
  assert (F : written (if fstat then [FileStat e] else []) = []) by now destruct fstat.
  rewrite F.
  assert (A : written (if negb (e_changed e) || negb (Nat.eqb (e_success e) 0)
     then match e_src e with Some r => [StatSource r] | None => [] end ++
          match e_dst e with Some r => [StatDest r] | None => [] end else []) = []).
  { destruct (negb _ || _); auto. rewrite written_app. now destruct (e_src e), (e_dst e). }
  rewrite written_app in A || idtac. rewrite A. cbn [app]. rewrite app_nil_r, W.
  destruct (e_success e) as [|[|n]]; cbn; auto. now destruct n.
Qed.

(** ** C35 *)

(** The records written are, for the pairs in the order of the listing, exactly those they
    should be - for every cache size, every interleaving of listing and reports. *)
Theorem C35_metadata : forall fstat size ops events,
  NoDup (map pidx (pulled ops)) -> same_index (pulled ops) ->
  backup fstat size ops = Some events ->
  written events = flat_map (to_record ops) (pulled ops).
Proof.
  intros fstat size ops events N E H. rewrite (backup_events _ _ _ _ N E H). clear H N E.
  induction (pulled ops) as [|p l IH]; cbn; auto. rewrite written_app, IH. f_equal.
  rewrite written_post. destruct (ent_spec ops p) as (A & B & C & _). rewrite A, B, C.
  unfold to_record. now destruct (outcome_of _ _ _).
Qed.

(** so what is written does not depend on the size of the cache *)
Corollary C35_cache_size_irrelevant : forall fstat n m ops e1 e2,
  NoDup (map pidx (pulled ops)) -> same_index (pulled ops) ->
  backup fstat n ops = Some e1 -> backup fstat m ops = Some e2 -> e1 = e2.
Proof.
  intros fstat n m ops e1 e2 N E H1 H2.
  rewrite (backup_events _ _ _ _ N E H1), (backup_events _ _ _ _ N E H2). reflexivity.
Qed.

(** each path has at most one record, in the order of the listing *)
Theorem C35_once_in_order : forall fstat size ops events,
  listing pidx (pulled ops) -> same_index (pulled ops) ->
  backup fstat size ops = Some events -> listing q_index (written events).
Proof.
  intros fstat size ops events L E H.
  assert (N : NoDup (map pidx (pulled ops))).
  { apply listing_sorted in L. clear -L. induction (pulled ops) as [|p l IH]; cbn; constructor.
    - apply sorted_inv in L as [_ F]. intros I. apply in_map_iff in I as (q & Q & I).
      apply (idx_lt_neq (pidx p) (pidx q)); auto.
    - apply IH. now apply sorted_inv in L as [L _]. }
  rewrite (C35_metadata _ _ _ _ N E H). clear H N. apply listing_sorted in L. apply listing_sorted.
  assert (K : forall p, In p (pulled ops) -> forall r, In r (to_record ops p) -> q_index r = pidx p).
  { intros p Hp r Hr. unfold to_record, with_hash, existing in Hr.
    assert (S : forall s, fst p = Some s -> q_index s = pidx p).
    { intros s Hs. destruct p as [[s'|] [d|]]; cbn in *; try discriminate; injection Hs as ->; auto. }
    assert (D : forall s, snd p = Some s -> q_index s = pidx p).
    { intros s Hs. destruct p as [[s'|] [d|]]; cbn in *; try discriminate; injection Hs as ->; auto. }
    destruct (outcome_of _ _ _).
    - destruct (snd p) as [d|]; [|destruct Hr]. destruct (q_there d); [|destruct Hr]. destruct Hr as [<-|[]]. auto.
    - destruct (fst p) as [d|]; [|destruct Hr].
      destruct (hash_of _ _ _); cbn [q_there set_sha] in Hr; (destruct (q_there d); [|destruct Hr]); destruct Hr as [<-|[]]; cbn; auto.
    - destruct Hr. }
  assert (O : forall p, to_record ops p = [] \/ exists r, to_record ops p = [r]).
  { intros p. unfold to_record, existing. destruct (outcome_of _ _ _); [destruct (snd p)|destruct (with_hash ops p)|]; auto;
      destruct (q_there c); eauto. }
  induction (pulled ops) as [|p l IH]; cbn; [constructor|].
  assert (IH' : sorted_by q_index (flat_map (to_record ops) l)).
  { apply IH.
    - now apply sorted_inv in L as [L _].
    - intros s d Hs. apply E. now right.
    - intros q Hq. apply K. now right. }
  destruct (O p) as [->|[r Hr]]; auto. rewrite Hr. cbn [app]. apply sorted_cons; auto.
  intros r' Hr'. apply in_flat_map in Hr' as (q & Hq & Hr').
  rewrite (K p (or_introl eq_refl) r), (K q (or_intror Hq) r'); auto.
  - apply sorted_inv in L as [_ F]. auto.
  - rewrite Hr. now left.
Qed.

(** ** The list of parents *)
Definition prefixes (d : idx) : list idx := map (fun n => firstn n d) (seq 0 (S (length d))).
Definition dirs (k : nat) (L : list cpair) : list cpair := filter pair_dir (firstn k L).
Definition pinv (L : list cpair) (k : nat) (pl : list (idx * cpair)) : Prop :=
  match rev (dirs k L) with
  | [] => pl = []
  | q :: _ => map fst pl = prefixes (pidx q)
  end.

Lemma earlier L k p q : listing pidx L -> nth_error L k = Some p -> In q L ->
  before (pidx q) (pidx p) -> In q (firstn k L).
Proof.
  intros LL Hk Hq B. rewrite <- (firstn_skipn k L) in Hq. apply in_app_iff in Hq as [Hq|Hq]; auto.
  exfalso. apply listing_sorted in LL. apply before_lt in B.
  revert k Hk Hq. induction L as [|y L IH]; intros [|k] Hk Hq; cbn in *; try tauto; try discriminate.
  - injection Hk as ->. destruct Hq as [->|Hq]; [now apply idx_lt_irrefl in B|].
    apply sorted_inv in LL as [_ F]. apply F in Hq. apply (idx_lt_irrefl (pidx p)). eapply idx_lt_trans; eauto.
  - apply sorted_inv in LL as [LL _]. eapply IH; eauto.
Qed.
Lemma later L k p q : listing pidx L -> nth_error L k = Some p -> In q (firstn k L) -> idx_lt (pidx q) (pidx p).
Proof.
  intros LL Hk Hq. apply listing_sorted in LL. revert k Hk Hq. induction L as [|y L IH]; intros [|k] Hk Hq; cbn in *; try tauto; try discriminate.
  apply sorted_inv in LL as [LL F]. destruct Hq as [->|Hq].
  - apply F. eapply nth_error_In; eauto.
  - eapply IH; eauto.
Qed.
Lemma rev_last {T} (l : list T) x r : rev l = x :: r -> l = rev r ++ [x].
Proof. intros H. rewrite <- (rev_involutive l), H. reflexivity. Qed.

Lemma last_dir L k q r : listing pidx L -> rev (dirs k L) = q :: r ->
  forall p, In p (dirs k L) -> pidx p = pidx q \/ idx_lt (pidx p) (pidx q).
Proof.
  intros LL H p Hp. apply listing_sorted in LL. apply rev_last in H.
  assert (S : sorted_by pidx (dirs k L)).
  { unfold dirs. clear -LL. revert k. induction L as [|y L IH]; intros [|k]; cbn; try constructor.
    apply sorted_inv in LL as [LL F]. destruct (pair_dir y); auto. apply sorted_cons; auto.
    intros z Hz. apply F. apply filter_In in Hz as [Hz _]. rewrite <- (firstn_skipn k L). apply in_or_app; auto. }
  rewrite H in *. clear H. apply in_app_iff in Hp as [Hp|[->|[]]]; auto. right.
  induction (rev r) as [|y l IH]; [destruct Hp|]. cbn in S. apply sorted_inv in S as [S F].
  destruct Hp as [->|Hp]; auto. apply F. apply in_or_app. right. now left.
Qed.

Lemma prefixes_last pl d : map (@fst idx cpair) pl = prefixes d -> exists pr r, rev pl = (d, pr) :: r.
Proof.
  intros H. unfold prefixes in H. rewrite seq_S, map_app in H. cbn in H. rewrite firstn_all in H.
  destruct (rev pl) as [|[x pr] r] eqn:R.
  - apply (f_equal (@rev _)) in R. rewrite rev_involutive in R. subst pl. apply (f_equal (@length _)) in H. rewrite app_length in H. cbn [length rev map] in H. lia.
  - apply rev_last in R. subst pl. rewrite map_app in H. cbn in H. apply app_inj_tail in H as [_ ->]. eauto.
Qed.

Lemma firstn_less {T} n m (l : list T) : n <= m -> firstn n (firstn m l) = firstn n l.
Proof. intros. rewrite firstn_firstn. f_equal. lia. Qed.

Lemma update_parents_ok L k p pl e : tree_pairs L -> nth_error L k = Some p -> pinv L k pl ->
  e_index e = pidx p -> is_dir (e_src e) || is_dir (e_dst e) = pair_dir p ->
  exists pl', update_parents pl e = Some pl' /\ pinv L (S k) pl'.
Proof.
  intros T Hk PI Ei Ed. unfold update_parents. rewrite Ed.
  assert (Hp : In p L) by (eapply nth_error_In; eauto).
  assert (DS : dirs (S k) L = dirs k L ++ filter pair_dir [p]).
  { unfold dirs. destruct (skipn_cons k L) as (x & _ & E & En); [apply nth_error_Some; congruence|].
    rewrite E, filter_app. congruence. }
  destruct (pair_dir p) eqn:PD; cbn [negb].
  2:{ exists pl. split; auto. unfold pinv in *. rewrite DS. cbn. rewrite PD. now rewrite app_nil_r. }
  assert (RD : rev (dirs (S k) L) = p :: rev (dirs k L)).
  { rewrite DS. cbn. rewrite PD. now rewrite rev_app_distr. }
  unfold pinv in *. rewrite RD. rewrite Ei.
  assert (PAR : forall n, n < length (pidx p) -> exists q, In q (dirs k L) /\ pidx q = firstn n (pidx p)).
  { intros n Hn. destruct (tp_parent _ T p n Hp Hn) as (q & Hq & Eq & Dq). exists q. split; auto.
    apply filter_In. split; auto. eapply earlier; eauto; [apply (tp_sorted _ T)|].
    apply before_lt. rewrite Eq.
    destruct (prefix_le (firstn n (pidx p)) (pidx p)) as [Q|]; auto; [apply firstn_prefix|].
    exfalso. apply (f_equal (@length _)) in Q. rewrite firstn_length in Q. lia. }
  destruct (rev (dirs k L)) as [|q r] eqn:R.
  - subst pl. cbn [rev]. destruct (pidx p) as [|c cs] eqn:Q.
    + eexists. split; [reflexivity|]. reflexivity.
    + exfalso. destruct (PAR 0) as (x & Hx & _); [cbn; lia|].
      rewrite <- (rev_involutive (dirs k L)), R in Hx. destruct Hx.
  - destruct (prefixes_last _ _ PI) as (pr & r' & RP). rewrite RP.
    assert (Hq : In q (dirs k L)) by (rewrite (rev_last _ _ _ R); apply in_or_app; right; now left).
    assert (LT : idx_lt (pidx q) (pidx p)).
    { eapply later; eauto; [apply (tp_sorted _ T)|]. unfold dirs in Hq. now apply filter_In in Hq. }
    assert (NN : pidx p <> []).
    { intros Q. rewrite Q in LT. destruct (pidx q); cbn in LT; discriminate. }
    assert (LN : 0 < length (pidx p)) by (destruct (pidx p); cbn; [congruence|lia]).
    destruct (PAR (length (pidx p) - 1)) as (x & Hx & Ex); [lia|].
    assert (PX : prefix (removelast (pidx p)) (pidx q)).
    { apply prefix_between with (y := pidx p); auto.
      - rewrite L_Tree.removelast_firstn, <- Ex. eapply last_dir; eauto. apply (tp_sorted _ T).
      - rewrite L_Tree.removelast_firstn. apply firstn_prefix. }
    assert (LR : length (removelast (pidx p)) = length (pidx p) - 1).
    { rewrite L_Tree.removelast_firstn, firstn_length. lia. }
    pose proof (prefix_length _ _ PX) as LP. rewrite LR in LP.
    assert (FE : firstn (length (pidx p) - 1) (pidx q) = removelast (pidx p)).
    { rewrite <- LR. symmetry. now apply prefix_firstn. }
    assert (SAME : forall n, n < length (pidx p) -> firstn n (pidx q) = firstn n (pidx p)).
    { intros n Hn. rewrite <- (firstn_less n (length (pidx p) - 1)) by lia. rewrite FE, L_Tree.removelast_firstn.
      apply firstn_less. lia. }
    assert (PPX : prefixes (pidx p) = map (fun n => firstn n (pidx q)) (seq 0 (length (pidx p))) ++ [pidx p]).
    { unfold prefixes. rewrite seq_S, map_app. cbn [map]. rewrite Nat.add_0_l, firstn_all. f_equal.
      apply map_ext_in. intros n Hn. apply in_seq in Hn. symmetry. apply SAME. lia. }
    destruct (Nat.leb_spec (length (pidx p)) (length (pidx q) + 1)); [cbn [negb]|lia].
    destruct (Nat.leb_spec (length (pidx p)) (length (pidx q))).
    + rewrite FE, idx_eqb_refl. eexists. split; [reflexivity|].
      rewrite map_app. cbn [map fst]. rewrite PPX. f_equal.
      rewrite <- firstn_map, PI. unfold prefixes. rewrite firstn_map. f_equal.
      replace (S (length (pidx q))) with (length (pidx p) + (S (length (pidx q)) - length (pidx p))) by lia.
      rewrite seq_app, firstn_app, seq_length, Nat.sub_diag. cbn [firstn].
      rewrite app_nil_r. rewrite firstn_all2; auto. rewrite seq_length. lia.
    + eexists. split; [reflexivity|]. rewrite map_app. cbn [map fst]. rewrite PPX. f_equal.
      rewrite PI. unfold prefixes. do 2 f_equal. lia.
Qed.

Lemma update_parents_in pl e pl' x : update_parents pl e = Some pl' -> In x pl' ->
  In x pl \/ (x = (e_index e, (e_src e, e_dst e)) /\ is_dir (e_src e) || is_dir (e_dst e) = true).
Proof.
  unfold update_parents. destruct (is_dir (e_src e) || is_dir (e_dst e)); cbn [negb]; [|intros [= <-]; auto].
  destruct (rev pl) as [|[d pr] r].
  - destruct (e_index e); [|discriminate]. intros [= <-] [H|[H|[]]]%in_app_iff; auto.
  - destruct (negb _); [discriminate|]. destruct (Nat.leb _ _).
    + destruct (idx_eqb _ _); [|discriminate]. intros [= <-] [H|[H|[]]]%in_app_iff; auto.
      left. rewrite <- (firstn_skipn (length (e_index e)) pl). apply in_or_app; auto.
    + intros [= <-] [H|[H|[]]]%in_app_iff; auto.
Qed.

Definition pent (h : list op) (k : nat) (pl : list (idx * cpair)) : Prop :=
  forall i pr, In (i, pr) pl -> exists p, In p (firstn k (pulled h)) /\ pidx p = i /\ pair_dir p = true /\
    pr = (e_src (ent h p), e_dst (ent h p)).

Lemma ent_dir h p : is_dir (e_src (ent h p)) || is_dir (e_dst (ent h p)) = pair_dir p.
Proof.
  destruct (ent_spec h p) as (_ & -> & -> & _). unfold pair_dir, with_hash. f_equal.
  destruct (fst p); auto. now destruct (hash_of _ _ _).
Qed.

Lemma shorten_ok L fstat h k s rest : tree_pairs L -> L = pulled h ++ rest -> inv fstat h k s ->
  k < length (pulled h) -> pinv L k (c_parents s) -> pent h k (c_parents s) ->
  exists s', shorten fstat s = Some s' /\ pinv L (S k) (c_parents s') /\ pent h (S k) (c_parents s').
Proof.
  intros T EL I Hk PI PE. unfold shorten. rewrite (i_ind _ _ _ _ I), (i_dict _ _ _ _ I).
  destruct (skipn_cons k (pulled h)) as (p & E & E' & En); [lia|]. rewrite E. cbn [map].
  rewrite (dget_head (ent h p) _ (pidx p)) by apply ent_index.
  assert (Hn : nth_error L k = Some p) by (rewrite EL, nth_error_app1; auto).
  destruct (update_parents_ok L k p (c_parents s) (ent h p) T Hn PI (ent_index h p) (ent_dir h p)) as (pl & U & PI').
  rewrite U. eexists. split; [reflexivity|]. split; [exact PI'|]. cbn [c_parents].
  intros i pr Hin. destruct (update_parents_in _ _ _ _ U Hin) as [Old|[New D]].
  - destruct (PE i pr Old) as (q & Hq & Q). exists q. split; auto. rewrite E'. apply in_or_app; auto.
  - injection New as -> ->. exists p. rewrite ent_index. split; [rewrite E'; apply in_or_app; right; now left|].
    rewrite ent_dir in D. auto.
Qed.

Lemma tree_nodup L : tree_pairs L -> NoDup (map pidx L).
Proof.
  intros T. pose proof (tp_sorted _ T) as H. apply listing_sorted in H. clear T.
  induction L as [|p l IH]; cbn; constructor.
  - apply sorted_inv in H as [_ F]. intros I. apply in_map_iff in I as (q & Q & I).
    apply (idx_lt_neq (pidx p) (pidx q)); auto.
  - apply IH. now apply sorted_inv in H as [H _].
Qed.

Lemma dget_some h k p : In p (skipn k (pulled h)) -> exists e, dget (map (ent h) (skipn k (pulled h))) (pidx p) = Some e.
Proof.
  intros H. unfold dget. destruct (find _ _) as [e|] eqn:F; eauto. exfalso.
  apply find_none with (x := ent h p) in F; [|now apply in_map]. rewrite ent_index, idx_eqb_refl in F. discriminate.
Qed.

Lemma pent_access h k pl o i : NoDup (map pidx (pulled h)) -> about o = Some i ->
  In i (map pidx (skipn k (pulled h))) -> pent h k pl -> pent (h ++ [o]) k pl.
Proof.
  intros N A I PE j pr H. destruct (PE j pr H) as (p & Hp & E & D & ->). exists p.
  assert (P : pulled (h ++ [o]) = pulled h) by (rewrite pulled_app; destruct o; try discriminate; cbn; now rewrite app_nil_r).
  rewrite P. split; auto. split; auto. split; auto. rewrite ent_snoc, app_op_other; auto.
  intros j' Hj'. assert (j' = i) as -> by congruence. rewrite ent_index. intros Q.
  apply (nodup_split k (map pidx (pulled h)) i N).
  - rewrite firstn_map, <- Q. now apply in_map.
  - now rewrite skipn_map.
Qed.

Lemma pent_pull h k pl q : k <= length (pulled h) -> pent h k pl -> pent (h ++ [Pull q]) k pl.
Proof.
  intros Hk PE j pr H. destruct (PE j pr H) as (p & Hp & E & D & ->). exists p.
  rewrite pulled_app. cbn [pulled]. rewrite firstn_app. rewrite ent_snoc. split; auto.
  apply in_or_app; auto.
Qed.

Definition good (L : list cpair) fstat size (h : list op) (s : ccpp) : Prop :=
  let k := length (pulled h) - size in
  inv fstat h k s /\ pinv L k (c_parents s) /\ pent h k (c_parents s).

Lemma pair_index_tree L p : tree_pairs L -> In p L -> pair_index p = Some (pidx p).
Proof.
  intros T Hp. destruct p as [[s|] [d|]]; cbn.
  - rewrite (tp_same _ T s d Hp). destruct (q_index d); auto.
  - destruct (q_index s) eqn:Q; auto. exfalso.
    destruct (tp_root _ T _ Hp) as [A _]; cbn; auto.
  - reflexivity.
  - exfalso. now apply (tp_some _ T).
Qed.

Lemma modify_good L fstat size h s o i f : NoDup (map pidx (pulled h)) ->
  good L fstat size h s -> about o = Some i -> (forall e, e_index e = i -> app_op o e = f e) ->
  (exists p, In p (lastn size (pulled h)) /\ pidx p = i) ->
  exists s', modify f i s = Some s' /\ good L fstat size (h ++ [o]) s'.
Proof.
  intros N (I & PI & PE) A F (p & Hp & E).
  assert (P : pulled (h ++ [o]) = pulled h) by (rewrite pulled_app; destruct o; try discriminate; cbn; now rewrite app_nil_r).
  destruct (modify f i s) as [s'|] eqn:M.
  - exists s'. split; auto. destruct (modify_inv _ _ _ _ _ _ _ _ N I A F M) as [I' EP].
    unfold good. rewrite P. split; auto. rewrite EP. split; auto.
    eapply pent_access; eauto. rewrite <- E. now apply in_map.
  - exfalso. unfold modify, in_cache in M. rewrite (i_dict _ _ _ _ I), <- E in M.
    unfold lastn in Hp. destruct (dget_some _ _ _ Hp) as [e He]. rewrite He in M. discriminate.
Qed.

Lemma step_good fstat size L h o rest s : tree_pairs L -> L = pulled (h ++ [o]) ++ rest ->
  good L fstat size h s ->
  (forall i, about o = Some i -> exists p, In p (lastn size (pulled h)) /\ pidx p = i /\
      (forall x, o = UpdateHash i x -> fst p <> None)) ->
  exists s', step fstat size o s = Some s' /\ good L fstat size (h ++ [o]) s'.
Proof.
  intros T EL G HT. pose proof (tree_nodup L T) as NL.
  assert (N : NoDup (map pidx (pulled (h ++ [o])))).
  { rewrite EL, map_app in NL. eapply nodup_pre; eauto. }
  assert (N0 : NoDup (map pidx (pulled h))).
  { rewrite pulled_app, map_app in N. eapply nodup_pre; eauto. }
  assert (SI : same_index L) by (exact (tp_same _ T)).
  destruct o as [p|i|i|i|i r|i x]; cbn [step].
  - destruct G as (I & PI & PE).
    assert (HpL : In p L). { rewrite EL, pulled_app. apply in_or_app. left. apply in_or_app. right. now left. }
    unfold pull. rewrite (pair_index_tree L p T HpL).
    set (s1 := mk_ccpp _ _ _ _).
    assert (I1 : inv fstat (h ++ [Pull p]) (length (pulled h) - size) s1).
    { rewrite pulled_app in N. cbn [pulled] in N.
      assert (E' : forall s d, p = (Some s, Some d) -> q_index s = q_index d) by (intros a b ->; now apply SI).
      refine (proj1 (pull_inv fstat (S (length (c_indices s1))) h _ s s1 p N E' I _)).
      unfold pull. rewrite (pair_index_tree L p T HpL). fold s1.
      destruct (Nat.ltb_spec (S (length (c_indices s1))) (length (c_indices s1))); [lia|reflexivity]. }
    pose proof (inv_len _ _ _ _ I1) as Len.
    assert (PL : length (pulled (h ++ [Pull p])) = S (length (pulled h))).
    { rewrite pulled_app, app_length. cbn. lia. }
    assert (PE1 : pent (h ++ [Pull p]) (length (pulled h) - size) (c_parents s1)).
    { apply pent_pull; auto. lia. }
    destruct (Nat.ltb_spec size (length (c_indices s1))).
    + destruct (shorten_ok L fstat (h ++ [Pull p]) (length (pulled h) - size) s1 rest T EL I1) as (s' & Sh & PI' & PE'); auto.
      { lia. }
      exists s'. split; auto. unfold good.
      assert (Q : length (pulled (h ++ [Pull p])) - size = S (length (pulled h) - size)) by lia.
      rewrite Q. split; auto. eapply shorten_app; eauto.
    + exists s1. split; auto. unfold good.
      assert (Q : length (pulled (h ++ [Pull p])) - size = length (pulled h) - size) by lia.
      rewrite Q. auto.
  - destruct (HT i eq_refl) as (p & Hp & E & _).
    apply (modify_good L fstat size h s (FlagSuccess i) i (set_success 1)); eauto. intros e <-. cbn. now rewrite idx_eqb_refl.
  - destruct (HT i eq_refl) as (p & Hp & E & _).
    apply (modify_good L fstat size h s (FlagDeleted i) i (set_success 2)); eauto. intros e <-. cbn. now rewrite idx_eqb_refl.
  - destruct (HT i eq_refl) as (p & Hp & E & _).
    apply (modify_good L fstat size h s (FlagChanged i) i set_changed); eauto. intros e <-. cbn. now rewrite idx_eqb_refl.
  - destruct (HT i eq_refl) as (p & Hp & E & _).
    apply (modify_good L fstat size h s (SetInc i r) i (set_inc r)); eauto. intros e <-. cbn. now rewrite idx_eqb_refl.
  - destruct (HT i eq_refl) as (p & Hp & E & HS). specialize (HS x eq_refl).
    destruct G as (I & PI & PE).
    assert (P : pulled (h ++ [UpdateHash i x]) = pulled h) by (rewrite pulled_app; cbn; now rewrite app_nil_r).
    destruct (option_map fst (update_hash i x s)) as [s'|] eqn:M.
    + exists s'. split; auto. destruct (update_hash_inv _ _ _ _ _ _ _ N0 I M) as [I' EP].
      unfold good. rewrite P. split; auto. rewrite EP. split; auto.
      eapply pent_access; eauto; [reflexivity|]. rewrite <- E. now apply in_map.
    + exfalso. unfold lastn in Hp.
      destruct (dget_some _ _ _ Hp) as [e He]. unfold update_hash in M.
      rewrite (i_dict _ _ _ _ I), <- E, He, (i_ind _ _ _ _ I) in M.
      destruct (dget_cached _ _ _ _ He) as (p' & Hp' & Ep' & ->).
      assert (p' = p) as ->.
      { pose proof (nodup_skip (length (pulled h) - size) _ N0) as N1. rewrite skipn_map in N1. clear -N1 Hp Hp' Ep'.
        induction (skipn (length (pulled h) - size) (pulled h)) as [|y l IH]; [destruct Hp|].
        cbn in *. inversion N1; subst. destruct Hp as [->|Hp], Hp' as [->|Hp']; auto.
        - exfalso. apply H1. rewrite <- Ep'. now apply in_map.
        - exfalso. apply H1. rewrite Ep'. now apply in_map. }
      assert (SP : sorted_by pidx (skipn (length (pulled h) - size) (pulled h))).
      { pose proof (tp_sorted _ T) as SL. apply listing_sorted in SL. rewrite EL, P in SL. clear -SL.
        assert (S1 : sorted_by pidx (pulled h)).
        { induction (pulled h) as [|y l IH]; [constructor|]. cbn in SL. apply sorted_inv in SL as [SL F].
          apply sorted_cons; auto. intros z Hz. apply F. apply in_or_app; auto. }
        generalize (length (pulled h) - size). induction (pulled h) as [|y l IH]; intros [|k]; cbn; auto.
        apply IH; [cbn in SL; now apply sorted_inv in SL as [SL _]|now apply sorted_inv in S1 as [S1 _]]. }
      destruct (skipn (length (pulled h) - size) (pulled h)) as [|y l] eqn:SK; [destruct Hp|]. cbn [map] in M.
      destruct (idx_ltb (pidx p) (pidx y)) eqn:LT.
      * apply idx_ltb_lt in LT. destruct Hp as [->|Hp]; [now apply idx_lt_irrefl in LT|].
        apply sorted_inv in SP as [_ F]. apply (idx_lt_irrefl (pidx p)). eapply idx_lt_trans; eauto.
      * destruct (ent_spec h p) as (_ & _ & ES & _). rewrite ES in M. unfold with_hash in M.
        destruct (fst p); [|congruence]. destruct (hash_of _ _ _); discriminate.
Qed.

Lemma steps_good fstat size L l : forall h s rest, tree_pairs L -> L = pulled (h ++ l) ++ rest ->
  good L fstat size h s -> in_time size (h ++ l) ->
  exists s', steps fstat size l s = Some s' /\ good L fstat size (h ++ l) s'.
Proof.
  induction l as [|o l IH]; intros h s rest T EL G HT; cbn [steps].
  - exists s. rewrite app_nil_r. auto.
  - assert (A : h ++ o :: l = (h ++ [o]) ++ l) by now rewrite <- app_assoc.
    destruct (step_good fstat size L h o (pulled l ++ rest) s) as (s1 & S1 & G1); auto.
    { rewrite EL, A, pulled_app, app_assoc. reflexivity. }
    { intros i Hi. exact (HT h o l i eq_refl Hi). }
    rewrite S1, A. eapply IH; eauto; rewrite <- A; eauto.
Qed.

Lemma drain_good fstat L h n : forall k s, tree_pairs L -> L = pulled h -> inv fstat h k s ->
  pinv L k (c_parents s) -> pent h k (c_parents s) -> exists s', drain fstat n s = Some s'.
Proof.
  induction n as [|n IH]; intros k s T EL I PI PE; cbn; eauto.
  destruct (c_indices s) as [|i is] eqn:C; eauto.
  assert (k < length (pulled h)).
  { pose proof (inv_len _ _ _ _ I) as Q. rewrite C in Q. cbn in Q. lia. }
  destruct (shorten_ok L fstat h k s [] T) as (s' & S & PI' & PE'); auto; [now rewrite app_nil_r|].
  rewrite S. eapply IH; eauto. eapply shorten_app; eauto. rewrite <- EL. now apply tree_nodup.
Qed.

Lemma good_init L fstat size : good L fstat size [] ccpp_init.
Proof.
  split; [apply inv_init|]. split; [reflexivity|]. intros i pr [].
Qed.

(** No KeyError, no AssertionError, nothing lost: if the reports come in time, the backup
    processes every pair. *)
Theorem C35_no_error : forall fstat size ops,
  tree_pairs (pulled ops) -> in_time size ops ->
  exists events, backup fstat size ops = Some events.
Proof.
  intros fstat size ops T HT. unfold backup.
  destruct (steps_good fstat size (pulled ops) ops [] ccpp_init [] T) as (s & S & I & PI & PE); auto.
  { cbn. now rewrite app_nil_r. }
  { apply good_init. }
  rewrite S. cbn [app] in *. unfold close.
  destruct (drain_good fstat (pulled ops) ops (length (c_indices s)) _ s T eq_refl I PI PE) as [s' ->].
  eexists; reflexivity.
Qed.

(** While a file is in the cache, all the directories above it are still accessible, with
    what was listed about them (get_rorps, get_mirror_rorp ...). *)
Theorem C35_parents : forall fstat size ops h t q n,
  tree_pairs (pulled ops) -> in_time size ops -> ops = h ++ t ->
  In q (lastn size (pulled h)) -> n < length (pidx q) ->
  exists s d, steps fstat size h ccpp_init = Some s /\
    In d (pulled ops) /\ pidx d = firstn n (pidx q) /\
    get_rorps s (firstn n (pidx q)) = Some (with_hash h d, snd d).
Proof.
  intros fstat size ops h t q n T HT EO Hq Hn.
  assert (HTh : in_time size h).
  { intros h' o t' i E A. exact (HT h' o (t' ++ t) i ltac:(rewrite EO, E, <- app_assoc; reflexivity) A). }
  destruct (steps_good fstat size (pulled ops) h [] ccpp_init (pulled t) T) as (s & S & I & PI & PE); auto.
  { rewrite EO. cbn. apply pulled_app. }
  { apply good_init. }
  cbn [app] in *. set (k := length (pulled h) - size) in *.
  assert (PL : pulled ops = pulled h ++ pulled t) by (rewrite EO; apply pulled_app).
  pose proof (tree_nodup _ T) as N.
  assert (Nh : NoDup (map pidx (pulled h))) by (rewrite PL, map_app in N; eapply nodup_pre; eauto).
  assert (Hqh : In q (pulled h)). { unfold lastn in Hq. fold k in Hq. rewrite <- (firstn_skipn k). apply in_or_app; auto. }
  assert (HqL : In q (pulled ops)). { rewrite PL. apply in_or_app; auto. }
  destruct (tp_parent _ T q n HqL Hn) as (d & Hd & Ed & Dd).
  exists s, d. split; auto. split; auto. split; auto. rewrite <- Ed.
  assert (LT : idx_lt (pidx d) (pidx q)).
  { rewrite Ed. destruct (prefix_le (firstn n (pidx q)) (pidx q)) as [Q|]; auto; [apply firstn_prefix|].
    exfalso. apply (f_equal (@length _)) in Q. rewrite firstn_length in Q. lia. }
  (* q is the m-th pair *)
  unfold lastn in Hq. fold k in Hq. apply In_nth_error in Hq as [m Hm].
  assert (Hm' : nth_error (pulled ops) (k + m) = Some q).
  { rewrite PL, nth_error_app1.
    - clear -Hm. revert Hm. generalize k as kk. induction (pulled h) as [|y l IH]; intros [|kk]; cbn; auto.
      destruct m; discriminate.
    - apply nth_error_Some. clear -Hm. revert Hm. generalize k as kk.
      induction (pulled h) as [|y l IH]; intros [|kk] Hm.
      + destruct m; discriminate.
      + destruct m; discriminate.
      + cbn [skipn] in Hm. rewrite Nat.add_0_l. congruence.
      + cbn in *. apply (IH kk). exact Hm. }
  assert (Hd' : In d (firstn (k + m) (pulled ops))).
  { eapply earlier; eauto; [apply (tp_sorted _ T)|]. now apply before_lt. }
  assert (HdL : In d (pulled h)).
  { assert (k + m <= length (pulled h)).
    { assert (m < length (skipn k (pulled h))) by (apply nth_error_Some; congruence). rewrite skipn_length in *.
      lia. }
    rewrite PL, firstn_app in Hd'. replace (k + m - length (pulled h)) with 0 in Hd' by lia. cbn in Hd'.
    rewrite app_nil_r in Hd'. rewrite <- (firstn_skipn (k + m)). apply in_or_app; auto. }
  assert (UNIQ : forall x, In x (pulled h) -> pidx x = pidx d -> x = d).
  { clear -Nh HdL. induction (pulled h) as [|y l IH]; [destruct HdL|]. cbn in Nh. inversion Nh; subst.
    intros x [->|Hx] E; destruct HdL as [->|HdL]; auto.
    - exfalso. apply H1. rewrite E. now apply in_map.
    - exfalso. apply H1. rewrite <- E. now apply in_map. }
  unfold get_rorps. destruct (dget (c_dict s) (pidx d)) as [e|] eqn:D.
  - rewrite (i_dict _ _ _ _ I) in D. destruct (dget_cached _ _ _ _ D) as (x & Hx & Ex & ->).
    assert (x = d) as ->. { apply UNIQ; auto. rewrite <- (firstn_skipn k). apply in_or_app; auto. }
    destruct (ent_spec h d) as (_ & -> & -> & _). reflexivity.
  - assert (Hdk : In d (firstn k (pulled h))).
    { rewrite <- (firstn_skipn k (pulled h)) in HdL. apply in_app_iff in HdL as [?|HdL]; auto.
      destruct (dget_some h k d HdL) as [e He]. rewrite (i_dict _ _ _ _ I), He in D. discriminate. }
    assert (HdD : In d (dirs k (pulled ops))).
    { unfold dirs. apply filter_In. split; auto. rewrite PL, firstn_app. apply in_or_app; auto. }
    unfold pinv in PI. destruct (rev (dirs k (pulled ops))) as [|z r] eqn:R.
    { rewrite <- (rev_involutive (dirs k (pulled ops))), R in HdD. destruct HdD. }
    assert (Hz : In z (dirs k (pulled ops))) by (rewrite (rev_last _ _ _ R); apply in_or_app; right; now left).
    assert (PRE : prefix (pidx d) (pidx z)).
    { apply prefix_between with (y := pidx q).
      - destruct (last_dir _ _ _ _ (tp_sorted _ T) R d HdD); auto.
      - apply filter_In in Hz as [Hz _]. eapply later; [apply (tp_sorted _ T)|exact Hm'|].
        rewrite <- (firstn_skipn k (firstn (k + m) (pulled ops))). apply in_or_app. left.
        rewrite firstn_firstn. replace (Nat.min k (k + m)) with k by lia. auto.
      - rewrite Ed. apply firstn_prefix. }
    assert (INP : In (pidx d) (map (@fst idx cpair) (c_parents s))).
    { rewrite PI. unfold prefixes. apply in_map_iff. exists (length (pidx d)). split.
      - symmetry. now apply prefix_firstn.
      - apply in_seq. apply prefix_length in PRE. lia. }
    unfold get_parent. destruct (find _ _) as [[i pr]|] eqn:F.
    + apply find_some in F as [F1 F2]. cbn in F2. apply idx_eqb_eq in F2. subst i.
      destruct (PE _ _ F1) as (x & Hx & Ex & _ & ->).
      assert (x = d) as ->. { apply UNIQ; auto. rewrite <- (firstn_skipn k). apply in_or_app; auto. }
      destruct (ent_spec h d) as (_ & -> & -> & _). reflexivity.
    + exfalso. apply in_map_iff in INP as ([i pr] & Ei & Hi). cbn in Ei. subst i.
      apply find_none with (x := (pidx d, pr)) in F; auto. cbn in F. rewrite idx_eqb_refl in F. discriminate.
Qed.

(** ** a case meeting the hypotheses: a tree of a directory with a file, a new file and a file deleted in the source,
    with a cache of two *)
Definition x_root := mk_crorp [] true false 0 true None.
Definition x_dir := mk_crorp [bs "d"] true false 0 true None.
Definition x_old := mk_crorp [bs "d"; bs "f"] false true 3 true (Some (bs "1")).
Definition x_new := mk_crorp [bs "d"; bs "f"] false true 4 true None.
Definition x_gone := mk_crorp [bs "e"] false true 5 true None.
Definition x_fail := mk_crorp [bs "g"] false true 6 true None.
Definition x_ops : list op :=
  [ Pull (Some x_root, Some x_root); Pull (Some x_dir, Some x_dir); Pull (Some x_new, Some x_old);
    FlagChanged [bs "d"; bs "f"]; UpdateHash [bs "d"; bs "f"] (bs "2"); FlagSuccess [bs "d"; bs "f"];
    Pull (None, Some x_gone); FlagChanged [bs "e"]; FlagDeleted [bs "e"]; Pull (Some x_fail, None); FlagChanged [bs "g"] ].
Example C35_example_tree : tree_pairs (pulled x_ops).
Proof.
  constructor.
  - apply listing_sorted. cbn. repeat constructor; vm_compute; auto.
  - intros s d [E|[E|[E|[E|[E|[]]]]]]; try discriminate; injection E as <- <-; reflexivity.
  - intros [E|[E|[E|[E|[E|[]]]]]]; discriminate.
  - intros p [<-|[<-|[<-|[<-|[<-|[]]]]]] E; try discriminate E. split; [discriminate|reflexivity].
  - intros p n [<-|[<-|[<-|[<-|[<-|[]]]]]] H; cbn in H; try lia.
    + exists (Some x_root, Some x_root). replace n with 0 by lia. cbn; auto.
    + destruct n as [|[|n]]; [exists (Some x_root, Some x_root); cbn; auto|exists (Some x_dir, Some x_dir); cbn; auto|lia].
    + exists (Some x_root, Some x_root). replace n with 0 by lia. cbn; auto.
    + exists (Some x_root, Some x_root). replace n with 0 by lia. cbn; auto.
Qed.
Example C35_example_written : option_map written (backup true 2 x_ops) =
  Some [x_root; x_dir; set_sha x_new (bs "2")].
Proof. vm_compute. reflexivity. Qed.
Lemma in_time_check size l :
  (forall n o i, nth_error l n = Some o -> about o = Some i ->
    exists p, In p (lastn size (pulled (firstn n l))) /\ pidx p = i /\ (forall x, o = UpdateHash i x -> fst p <> None)) ->
  in_time size l.
Proof.
  intros H h o t i -> A. specialize (H (length h) o i).
  rewrite nth_error_app2, Nat.sub_diag, firstn_app, Nat.sub_diag, firstn_all in H by lia. cbn [firstn nth_error] in H.
  rewrite app_nil_r in H. auto.
Qed.
Example C35_example_in_time : in_time 2 x_ops.
Proof.
  apply in_time_check. intros n o i H A.
  do 11 (destruct n as [|n]; [injection H as <-; try discriminate A; injection A as <-;
    first [ exists (Some x_new, Some x_old); split; [vm_compute; tauto|split; [reflexivity|intros; discriminate]]
          | exists (None, Some x_gone); split; [vm_compute; tauto|split; [reflexivity|intros ? E; discriminate E]]
          | exists (Some x_fail, None); split; [vm_compute; tauto|split; [reflexivity|intros ? E; discriminate E]] ] |]).
  destruct n; discriminate.
Qed.

(** a report coming too late is a KeyError (so the second hypothesis is needed), as is a
    root directory which does not exist in the mirror *)
Example C35_too_late : backup true 0 x_ops = None.
Proof. vm_compute. reflexivity. Qed.
Example C35_no_mirror_root : backup true 10 [Pull (Some x_root, None)] = None.
Proof. vm_compute. reflexivity. Qed.

Print Assumptions C35_metadata.
Print Assumptions C35_once_in_order.
Print Assumptions C35_no_error.
Print Assumptions C35_parents.
