(** * Lemmas for P_Life: the invariant at every moment *)
From Coq Require Import List ZArith Bool Lia Sorting.Permutation Sorting.Sorted.
From Verif Require Import Base L_Base M_Core L_Core P_Core M_Crash L_Crash M_Iter L_Iter L_Tree L_Lookup P_Iter
  M_MetaMgr L_MetaMgr L_MetaDir P_MetaMgr M_Global S_Global L_Global L_First P_Global M_Life S_Life L_LifeCut L_LifeSim.
Import List ListNotations.
Local Open Scope Z_scope.

Section Proofs.
Context {attr : Type}.
Variable delta : bytes -> bytes -> bytes.
Variable patch : bytes -> bytes -> option bytes.
Variable sha1 : attr -> bytes -> option bytes.
Variables same loose : attr -> attr -> bool.
Variable deq : meta attr -> meta attr -> bool.
Hypothesis deq_ok : forall x y, deq x y = true <-> x = y.
Variable fa : attr -> attr.
Variable m0 : @tree attr.
Notation hrec := (list (Z * (idx -> node attr))).
Notation life := (life delta patch sha1 same loose deq fa m0).
Notation act := (act delta patch sha1 same loose deq fa).

Variable ALL : list (@action attr).
Hypothesis HS : sound delta patch sha1 same loose fa m0 ALL.
Notation P := (bytes_seen fa m0 ALL).
Notation GInv := (GInv patch sha1 loose deq P).
Notation GMid := (GMid patch sha1 loose deq P).

Lemma l_nil p : P p [].
Proof using. now left. Qed.
Let patch_delta := o_librsync _ _ _ _ _ _ _ _ HS.
Let sha1_inj := o_sha1 _ _ _ _ _ _ _ _ HS.
Let loose_self := o_unhashed _ _ _ _ _ _ _ _ HS.

Definition okv (p : idx) (n : node attr) : Prop :=
  match n with Reg c a => c = [] \/ seen fa m0 ALL p (Reg c a) | _ => True end.
Lemma okv_okn p n : okv p n -> okn (P p) n.
Proof using. unfold okn, okv. destruct n; auto. intros [->|A]; [now left|right; eauto]. Qed.
Lemma src_ok2 src p : (src = m0 \/ exists a, In a ALL /\ In src (source_of a)) ->
  okv p (node_at src p) /\ okv p (as_found fa (node_at src p)).
Proof using.
  intros H. split; unfold okv.
  - destruct (node_at src p) eqn:E; auto. right. exists src. auto.
  - destruct (as_found fa (node_at src p)) eqn:E; auto. right. exists src. split; [exact H|]. right. now symmetry.
Qed.

Lemma rec_okv p v s o : okv p v -> okv p s -> okv p (recorded sha1 same v s o).
Proof using.
  intros Hv Hs. unfold recorded. destruct (meta_same same s (meta_of sha1 v)).
  - destruct o; try exact Hv. destruct s; try exact Hv. exact I.
  - destruct o; try exact Hs; [exact Hv|]. destruct s; try exact Hs. exact I.
Qed.

Lemma rec_same p v s o : okv p v -> okv p s -> updated o -> same_state same s (recorded sha1 same v s o).
Proof using HS.
  intros Hv Hr Ho. unfold recorded.
  assert (Hrefl : forall n : node attr, same_state same n n) by (intros []; cbn; auto).
  destruct (meta_same same s (meta_of sha1 v)) eqn:Em.
  - assert (Hx : same_state same s v).
    { destruct s as [|c a|a|d a], v as [|c' b|b|d' b]; cbn in Em; try discriminate; cbn; auto.
      - cbn in Hv, Hr. apply andb_true_iff in Em as [El Ea]. apply Nat.eqb_eq in El. split; auto.
        destruct Hv as [->|Hv]; [now destruct c|]. destruct Hr as [->|Hr]; [now destruct c'|].
        eapply (o_same _ _ _ _ _ _ _ _ HS p); eauto.
      - apply andb_true_iff in Em as [El Ea]. split; auto. now apply beq_true. }
    destruct o, s; try exact Hx; try (destruct Ho); apply Hrefl.
  - destruct o; try (destruct Ho); apply Hrefl.
Qed.

Lemma l_shows p v s : okv p v -> okv p s -> shows loose (P p) v s.
Proof using HS.
  intros Hv Hr. pose proof (okv_okn p s Hr) as Hk.
  unfold shows. destruct v as [|c a| |]; auto. destruct s as [|c' b| |] eqn:En; auto.
  intros Hl. split; [exact Hk|]. intros Hlo. cbn in Hv, Hr.
  destruct Hv as [->|Hv]; [now destruct c'|]. destruct Hr as [->|Hr]; [now destruct c|].
  symmetry. eapply (o_loose _ _ _ _ _ _ _ _ HS p); eauto.
Qed.
Lemma l_forced p v0 v1 : okv p v0 -> okv p v1 -> In AForce ALL ->
  forall c0 a0 c1 a1 b, v0 = Reg c0 a0 -> v1 = Reg c1 a1 -> length c1 = length c0 ->
     b = a1 \/ loose a1 b = true -> loose a0 b = true -> c1 = c0.
Proof using HS.
  intros H0 H1 Hf c0 a0 c1 a1 b -> -> El Hb Hl.
  cbn in H0, H1. destruct H0 as [->|H0]; [now destruct c1|]. destruct H1 as [->|H1]; [now destruct c0|].
  destruct Hb as [-> |Hb].
  - symmetry. eapply (o_loose _ _ _ _ _ _ _ _ HS p); eauto.
  - symmetry. eapply (o_forced _ _ _ _ _ _ _ _ HS Hf p c0 a0 c1 a1 b); eauto.
Qed.

(** an interrupted session after those recorded *)
Record MidState (recs : hrec) (r : @repo attr) : Prop := mk_mid {
  ms : exists t1 f1 recs0 t h d0 fs0 h0 l0, recs = (t1, f1) :: recs0 /\
    reach deq h d0 /\ inv deq h d0 (fs0 ++ [mk_mf t1 KSnap (recs_of l0)]) /\
    h = h0 ++ [(t1, l0)] /\ markers d0 = [t1] /\ t1 < t /\
    (forall p, find_md p (recs_of l0) = meta_of sha1 (f1 p)) /\
    Forall2 (matches sha1) h (rev recs) /\
    GMid recs0 t1 f1 t h fs0 l0 r }.

Definition PlainState (r : @repo attr) : Prop :=
  plain r /\ finite_files r /\ forall p, okv p (fst (r_path r p)) /\ okv p (as_found fa (fst (r_path r p))).

Definition state (recs : hrec) (r : @repo attr) : Prop :=
  (recs = [] /\ PlainState r) \/ (recs <> [] /\ GInv recs r) \/ MidState recs r.

Definition fits (l : list (Z * @tree attr * (idx -> outcome attr))) (recs : hrec) : Prop :=
  Forall2 (fun x y => fst (fst x) = fst y /\
     forall p, updated (snd x p) -> same_state same (node_at (snd (fst x)) p) (snd y p)) l (rev recs).
Definition all_okv (recs : hrec) : Prop := forall t f, In (t, f) recs -> forall p, okv p (f p).

Lemma fits_add l recs t src o f : fits l recs ->
  (forall p, updated (o p) -> same_state same (node_at src p) (f p)) -> fits (l ++ [(t, src, o)]) ((t, f) :: recs).
Proof using. intros H Hp. unfold fits. cbn [rev]. apply Forall2_app; [exact H|]. repeat constructor. exact Hp. Qed.
Lemma fits_keep l recs rt : fits l recs -> fits (filter (fun x => rt <=? fst (fst x)) l) (keep_recs rt recs).
Proof using.
  unfold fits, keep_recs. rewrite <- keep_rev. generalize (rev recs). clear. induction l as [|x l IH]; intros l2 H2;
    inversion H2 as [|? y ? l3 Hxy H3]; subst; [constructor|].
  cbn [filter]. destruct Hxy as [Et Hp]. rewrite <- Et. destruct (rt <=? fst (fst x)); auto.
Qed.
Lemma fits_pop l y recs : fits l (y :: recs) -> fits (removelast l) recs.
Proof using.
  intros IH. unfold fits in *. cbn [rev] in IH. destruct (last_case l) as [E|(l' & x & E)]; rewrite E in IH |- *.
  - inversion IH as [E0|]. destruct (rev recs); discriminate.
  - rewrite removelast_last. apply Forall2_app_inv_l in IH as (a & b & A & B & Eq).
    inversion B as [|? ? ? ? _ B']; subst. inversion B'; subst. apply app_inj_tail in Eq as [<- _]. exact A.
Qed.

(** what the markers are in each state *)
Lemma plain_markers (r : @repo attr) : plain r -> markers (r_data r) = [].
Proof using.
  intros [H _]. unfold clean_initial, failed_initial in H. destruct (markers (r_data r)) eqn:E; [reflexivity|].
  rewrite H in E. discriminate.
Qed.
Lemma ginv_markers t1 f1 recs r : GInv ((t1, f1) :: recs) r -> markers (r_data r) = [t1].
Proof using deq_ok. intros [HD _]. destruct (dinv_last sha1 deq deq_ok _ _ _ _ HD) as (h & h0 & l0 & _ & _ & Hm & _). exact Hm. Qed.
Lemma mid_markers recs0 t1 f1 t h fs0 l0 r : GMid recs0 t1 f1 t h fs0 l0 r ->
  markers (r_data r) = [t; t1] \/ markers (r_data r) = [t1; t].
Proof using. intros [[H _] _]. exact H. Qed.
Lemma mid_two recs0 t1 f1 t h fs0 l0 r : t1 < t -> GMid recs0 t1 f1 t h fs0 l0 r -> two_markers (r_data r) = Some (t, t1).
Proof using. intros Ht H. apply two_marks; [exact Ht|]. exact (mid_markers _ _ _ _ _ _ _ _ H). Qed.
Lemma two_no_start now (d : @ddir (meta attr)) a b : markers d = [a; b] -> forall p, backup_start now false false d <> StBackup p.
Proof using.
  intros E p. unfold backup_start, needs_regress, mirror_time. rewrite E. destruct (incs_used d); cbn; discriminate.
Qed.
Lemma one_no_first now (d : @ddir (meta attr)) t : markers d = [t] -> 0 < t -> clean_initial d = d /\ backup_start now false false d <> StBackup None.
Proof using.
  intros E Ht. unfold clean_initial, failed_initial. rewrite E. split; [reflexivity|].
  unfold backup_start, needs_regress, mirror_time. rewrite E.
  assert (X : (t =? 0) = false) by (apply Z.eqb_neq; lia). rewrite X.
  destruct (incs_used d); cbn; destruct ((t <? 0) || (now <=? t)); discriminate.
Qed.
Lemma ginv_pos t1 f1 recs r : GInv ((t1, f1) :: recs) r -> 0 < t1.
Proof using deq_ok. intros [HD _]. destruct (dinv_last sha1 deq deq_ok _ _ _ _ HD) as (h & h0 & l0 & _ & _ & _ & Hp & _). exact Hp. Qed.

Lemma mid_not_first (r : @repo attr) a b : markers (r_data r) = [a; b] -> clean_initial (r_data r) = r_data r.
Proof using. intros E. unfold clean_initial, failed_initial. now rewrite E. Qed.

Lemma state_first recs r found t src o zd r' : state recs r -> gfirst delta sha1 same deq fa found t src o zd r = Some r' -> recs = [] /\ PlainState r.
Proof using deq_ok.
  intros [H|[[Hne HG]|[HM]]] E; [exact H| |]; exfalso.
  - destruct recs as [|[t1 f1] recs]; [congruence|].
    destruct (one_no_first t (r_data r) t1 (ginv_markers _ _ _ _ HG) (ginv_pos _ _ _ _ HG)) as [E1 E2].
    unfold gfirst in E. rewrite E1 in E. destruct (backup_start t false false (r_data r)) as [[x|]| |]; try discriminate. now apply E2.
  - destruct HM as (t1 & f1 & recs0 & tt & h & d0 & fs0 & h0 & l0 & _ & _ & _ & _ & _ & _ & _ & _ & HG).
    assert (HX : exists a b, markers (r_data r) = [a; b]) by (destruct (mid_markers _ _ _ _ _ _ _ _ HG); eauto).
    destruct HX as (a & b & HX). unfold gfirst in E. rewrite (mid_not_first _ _ _ HX) in E.
    pose proof (two_no_start t _ a b HX) as Hn.
    destruct (backup_start t false false (r_data r)) as [[x|]| |]; try discriminate. now apply (Hn None).
Qed.
Lemma state_fkilled recs r found y r' : state recs r -> first_crash delta sha1 same deq fa found y r = Some r' -> recs = [] /\ PlainState r.
Proof using deq_ok.
  intros [H|[[Hne HG]|[HM]]] E; [exact H| |]; exfalso.
  - destruct recs as [|[t1 f1] recs]; [congruence|].
    destruct (one_no_first (y_time y) (r_data r) t1 (ginv_markers _ _ _ _ HG) (ginv_pos _ _ _ _ HG)) as [E1 E2].
    unfold first_crash in E. rewrite E1 in E. destruct (backup_start (y_time y) false false (r_data r)) as [[x|]| |]; try discriminate. now apply E2.
  - destruct HM as (t1 & f1 & recs0 & tt & h & d0 & fs0 & h0 & l0 & _ & _ & _ & _ & _ & _ & _ & _ & HG).
    assert (HX : exists a b, markers (r_data r) = [a; b]) by (destruct (mid_markers _ _ _ _ _ _ _ _ HG); eauto).
    destruct HX as (a & b & HX). unfold first_crash in E. rewrite (mid_not_first _ _ _ HX) in E.
    pose proof (two_no_start (y_time y) _ a b HX) as Hn.
    destruct (backup_start (y_time y) false false (r_data r)) as [[x|]| |]; try discriminate. now apply (Hn None).
Qed.
(** a session with a marker or an interrupted one starts only in a complete repository *)
Lemma state_started recs r t p : state recs r -> markers (r_data r) <> [] -> backup_start t false false (r_data r) = StBackup p ->
  recs <> [] /\ GInv recs r.
Proof using.
  intros [[-> [H _]]|[H|[HM]]] Hm E; [|exact H|]; exfalso.
  - apply Hm. now apply plain_markers.
  - destruct HM as (t1 & f1 & recs0 & tt & h & d0 & fs0 & h0 & l0 & _ & _ & _ & _ & _ & _ & _ & _ & HG).
    destruct (mid_markers _ _ _ _ _ _ _ _ HG) as [HX|HX]; exact (two_no_start t _ _ _ HX _ E).
Qed.
Lemma state_regress recs r good l prog used z : state recs r -> regress_plan patch sha1 loose used z r good l prog ->
  MidState recs r.
Proof using deq_ok.
  intros [[-> [H _]]|[[Hne HG]|HM]] (bad & rc & Hw & _); [| |exact HM]; exfalso.
  - unfold two_markers in Hw. rewrite (plain_markers r H) in Hw. discriminate.
  - destruct recs as [|[t1 f1] recs]; [congruence|]. unfold two_markers in Hw. rewrite (ginv_markers _ _ _ _ HG) in Hw. discriminate.
Qed.

Lemma mid_plan_ok recs r used z good l prog : MidState recs r -> regress_plan patch sha1 loose used z r good l prog ->
  (forall kd kp, MidState recs (regress_part good l prog kd kp r)) /\ recs <> [] /\ GInv recs (regress_full good l prog r) /\
  incs_used (r_data (regress_full good l prog r)) = used.
Proof using deq_ok HS.
  intros [(t1 & f1 & recs0 & tt & h & d0 & fs0 & h0 & l0 & -> & HR & HI & Hh & Hm & Ht & Hmd & HF & HG)] Hp.
  destruct (plan_ok delta patch sha1 same loose deq deq_ok P l_nil patch_delta sha1_inj loose_self
    recs0 t1 f1 tt h d0 fs0 h0 l0 HR HI Hh Hm Ht Hmd HF used z r good l prog HG Hp) as (A & B & C & D & E).
  split.
  - intros kd kp. constructor. exists t1, f1, recs0, tt, h, d0, fs0, h0, l0. repeat (split; [assumption || reflexivity|]). apply A.
  - split; [discriminate|]. split; [exact B|]. now rewrite C.
Qed.
Lemma mid_plan_exists recs r used z : MidState recs r -> exists good l prog, regress_plan patch sha1 loose used z r good l prog.
Proof using deq_ok HS.
  intros [(t1 & f1 & recs0 & tt & h & d0 & fs0 & h0 & l0 & -> & HR & HI & Hh & Hm & Ht & Hmd & HF & HG)].
  destruct (plan_exists delta patch sha1 same loose deq deq_ok P l_nil patch_delta sha1_inj loose_self
    recs0 t1 f1 tt h d0 fs0 h0 l0 HI Hh Ht Hmd used z r HG) as (l & prog & Hp). eauto.
Qed.

Lemma plain_relist r r' : PlainState r -> relisted r r' -> PlainState r'.
Proof using.
  intros ([Hc Hi] & [L HL] & Hok) (Hm & Hf & Ho & Hu & Hp). split; [split|split].
  - pose proof (plain_markers r (conj Hc Hi)) as Hmk. unfold clean_initial, failed_initial in *. rewrite Hmk in Hc. rewrite Hm, Hmk.
    rewrite <- (Permutation_length Hf). destruct (length (mfiles (r_data r)) <=? 1)%nat eqn:El; [reflexivity|].
    apply Nat.leb_gt in El. rewrite Hc in El. cbn in El. lia.
  - intros p. destruct (Hp p) as [_ E]. rewrite Hi in E. now apply Permutation_nil in E.
  - exists L. intros p. rewrite (proj1 (Hp p)). apply HL.
  - intros p. rewrite (proj1 (Hp p)). apply Hok.
Qed.
Lemma mid_relist recs r r' : MidState recs r -> relisted r r' -> MidState recs r'.
Proof using.
  intros [(t1 & f1 & recs0 & tt & h & d0 & fs0 & h0 & l0 & -> & HR & HI & Hh & Hm & Ht & Hmd & HF & [[M1 M2] HP])] (Em & Hf & Ho & Hu & Hp).
  constructor. exists t1, f1, recs0, tt, h, d0, fs0, h0, l0. repeat (split; [assumption || reflexivity|]). split; [split|].
  - now rewrite Em.
  - destruct M2 as [(ex & A & B)|(fs1 & h1 & l1 & l & A & B & C & D)]; [left; exists ex|right; exists fs1, h1, l1, l].
    + split; [|exact B]. now rewrite <- Hf.
    + repeat (split; [assumption|]). now rewrite <- Hf.
  - intros p. destruct (HP p) as (m & l & s & A & B & C). exists m, l, s. destruct (Hp p) as [E1 E2].
    rewrite E1. split; [exact A|]. split; [|exact C]. now rewrite <- E2.
Qed.

Lemma mid_remove recs r rt u : MidState recs r -> rt <= last_good (r_data r) -> MidState (keep_recs rt recs) (gremove rt u r).
Proof using.
  intros [(t1 & f1 & recs0 & tt & h & d0 & fs0 & h0 & l0 & -> & HR & HI & Hh & Hm & Ht & Hmd & HF & HG)] Hrt.
  unfold last_good in Hrt. rewrite (mid_two _ _ _ _ _ _ _ _ Ht HG) in Hrt.
  assert (Hrt' : forall rt' b, In (rt', b) [(rt, u)] -> rt' <= t1) by (intros ? ? [[= <- <-]|[]]; exact Hrt).
  destruct (removals_gmid patch sha1 loose deq P [(rt, u)] recs0 t1 f1 tt h d0 fs0 h0 l0 r HR HI Hh Hm Ht HF HG Hrt')
    as (h' & d' & fs' & h1 & HR' & HI' & Hh' & Hm' & HF' & HG').
  cbn [map fst] in HF', HG'. rewrite without_one in HF', HG'.
  constructor. exists t1, f1, (keep_recs rt recs0), tt, h', d', fs', h1, l0.
  split; [cbn; now rewrite (proj2 (Z.leb_le _ _) Hrt)|].
  repeat (split; [assumption|]). split; [|exact HG'].
  cbn. rewrite (proj2 (Z.leb_le _ _) Hrt). exact HF'.
Qed.

Lemma keep_okv recs rt : all_okv recs -> all_okv (keep_recs rt recs).
Proof using. intros H t f Hin. apply filter_In in Hin as [Hin _]. eauto. Qed.

(** one call, not a killed removal *)
Lemma state_step hl recs r a r' : fits hl recs -> all_okv recs -> state recs r ->
  Forall (listing fst) (source_of a) -> act a r r' ->
  (forall src, In src (source_of a) -> exists b, In b ALL /\ In src (source_of b)) ->
  (forall t src o zd p, a = ASession t src o zd \/ a = AFirst t src o zd ->
     match o p with OIncFail _ | ORenameFail | OSpecialFail _ => False | _ => True end) ->
  (a = AForce -> In AForce ALL) -> (forall rt u, a <> ARemoveKilled rt u) ->
  exists recs', fits (holding hl a) recs' /\ all_okv recs' /\ state recs' r'.
Proof using deq_ok HS.
  intros Hfit Hok Hst Hw Ha Hb Hout Hf0 Hcut.
  assert (Hsrc : forall src, In src (source_of a) -> forall p, okv p (node_at src p)).
  { intros src Hs p. destruct (Hb src Hs) as (b & Hbi & Es). apply src_ok2. right. eauto. }
  assert (Hgh : forall p, okv p (ghead recs p)).
  { intros p. apply (ghead_from recs okv); [intros; exact I|exact Hok]. }
  destruct a as [t src o zd|t src o z zd kd kp|t src o zd|y|used z|used z kd kp|rt u|rt u|]; cbn [M_Life.act holding source_of] in *.
  + destruct Ha as [Hm E].
    assert (HX : recs <> [] /\ GInv recs r).
    { unfold gsession in E. destruct (backup_start t false false (r_data r)) eqn:Eb; try discriminate. eapply state_started; eauto. }
    destruct HX as [Hne HG].
    assert (HX : GInv ((t, newf sha1 same recs src o) :: recs) r').
    { eapply session_ginv with (delta := delta) (same := same); eauto using l_nil.
      - exact (Forall_inv Hw).
      - intros p. pose proof (Hout t src o zd p (or_introl eq_refl)) as Ho. split.
        + unfold good. destruct (o p); auto.
        + intros a E'. rewrite E' in Ho. exact Ho.
      - intros p. apply okv_okn, Hsrc. now left. }
    exists ((t, newf sha1 same recs src o) :: recs). split; [|split].
    * apply fits_add; [exact Hfit|]. intros p Hu. apply (rec_same p); auto. apply Hsrc. now left.
    * intros t' f [[= <- <-]|H'] p; [|eauto]. apply rec_okv; auto. apply Hsrc. now left.
    * right. left. split; [discriminate|exact HX].
  + assert (HX : recs <> [] /\ GInv recs r).
    { unfold gcrash in Ha. destruct (backup_start t false false (r_data r)) as [[t2|]| |] eqn:Eb; try discriminate.
      eapply state_started; eauto. intros E. unfold backup_start, needs_regress, mirror_time in Eb. rewrite E in Eb.
      destruct (incs_used (r_data r)); cbn in Eb; [discriminate|]. destruct (t <=? 0); discriminate. }
    destruct HX as [Hne HG]. exists recs. split; [exact Hfit|]. split; [exact Hok|]. right. right. constructor.
    destruct recs as [|[t1 f1] recs0]; [congruence|].
    destruct (crash_mid delta patch sha1 same loose deq deq_ok P l_nil patch_delta sha1_inj loose_self
      recs0 t1 f1 r t src o z zd kd kp r' HG (Forall_inv Hw)) as (h & fs0 & h0 & l0 & HR & HI & Hh & Hm & Ht & Hmd & HF2 & HGm); auto.
    { intros p. apply okv_okn, Hsrc. now left. }
    { intros p. apply l_shows; [exact (Hgh p)|]. apply Hsrc. now left. }
    exists t1, f1, recs0, t, h, (r_data r), fs0, h0, l0. repeat (split; [assumption || reflexivity|]). exact HGm.
  + destruct Ha as (found & Hsc & E). destruct (state_first _ _ _ _ _ _ _ _ Hst E) as [-> (Hpl & Hfin & Hmok)].
    exists [(t, firstf sha1 same fa (fun p => fst (r_path r p)) src o)]. split; [|split].
    * apply (fits_add _ [] t src o _ Hfit). intros p Hu. apply (rec_same p); auto; [apply Hmok|]. apply Hsrc. now left.
    * intros t' f [[= <- <-]|[]] p. apply rec_okv; [apply Hmok|]. apply Hsrc. now left.
    * right. left. split; [discriminate|]. eapply (gfirst_ginv delta patch sha1 same loose deq P l_nil fa); eauto.
      -- intros a. apply (o_found _ _ _ _ _ _ _ _ HS a).
      -- intros a c. apply (o_found _ _ _ _ _ _ _ _ HS a).
      -- exact (Forall_inv Hw).
      -- intros p. apply okv_okn, Hmok.
      -- intros p. apply okv_okn, Hsrc. now left.
      -- intros p. pose proof (Hout t src o zd p (or_intror eq_refl)) as Ho. split.
         ++ unfold good. destruct (o p); auto.
         ++ intros a E'. rewrite E' in Ho. exact Ho.
  + destruct Ha as (found & Hsc & E). destruct (state_fkilled _ _ _ _ _ Hst E) as [-> (Hpl & Hfin & Hmok)].
    exists []. split; [exact Hfit|]. split; [exact Hok|]. left. split; [reflexivity|].
    destruct (first_crash_ok delta sha1 same deq fa r found y r' Hpl Hsc E) as [Hpl' Hmr].
    split; [exact Hpl'|]. split; [exact (first_crash_finite delta sha1 same deq fa r found y r' Hpl Hsc E)|]. intros p. rewrite Hmr.
    apply (step_ok delta sha1 same fa (fun a c => proj2 (o_found _ _ _ _ _ _ _ _ HS a) c) (fun p n => okv p n /\ okv p (as_found fa n))).
    * intros q [|c a|a|d a] Er; try discriminate; split; exact I.
    * intros q a. split; [|rewrite attr_found]; now left.
    * apply Hmok.
    * apply src_ok2. right. apply Hb. now left.
  + destruct Ha as (_ & good & l & prog & Hp & ->). pose proof (state_regress _ _ _ _ _ _ _ Hst Hp) as HM.
    destruct (mid_plan_ok _ _ _ _ _ _ _ HM Hp) as (_ & Hne & HG & _). exists recs. split; [exact Hfit|]. split; [exact Hok|].
    right. left. auto.
  + destruct Ha as (_ & good & l & prog & Hp & ->). pose proof (state_regress _ _ _ _ _ _ _ Hst Hp) as HM.
    destruct (mid_plan_ok _ _ _ _ _ _ _ HM Hp) as (HK & _). exists recs. split; [exact Hfit|]. split; [exact Hok|].
    right. right. apply HK.
  + destruct Ha as (Hmk & Hrt & ->). exists (keep_recs rt recs). split; [now apply fits_keep|]. split; [now apply keep_okv|].
    destruct Hst as [[_ [Hpl _]]|[[Hne HG]|HM]].
    * exfalso. apply Hmk. now apply plain_markers.
    * right. left. destruct recs as [|[t1 f1] recs0]; [congruence|].
      assert (Hrt' : rt <= mirror_time (r_data r)).
      { unfold last_good, two_markers in Hrt. rewrite (ginv_markers _ _ _ _ HG) in Hrt. exact Hrt. }
      destruct (remove_ginv patch sha1 loose deq deq_ok P rt u _ r Hne HG Hrt') as [A B]. split; [exact B|exact A].
    * right. right. now apply mid_remove.
  + exfalso. eapply Hcut. reflexivity.
  + destruct Ha as [Hlen E]. destruct Hst as [[_ [Hpl _]]|[[Hne HG]|[HM]]].
    * exfalso. rewrite (plain_markers r Hpl) in Hlen. discriminate.
    * destruct recs as [|[t1 f1] [|[t0 f0] r0]]; [congruence| |].
      { rewrite (forced_single patch sha1 loose deq deq_ok P t1 f1 r HG) in E. discriminate. }
      destruct (forced_gmid patch sha1 loose deq deq_ok P t1 f1 t0 f0 r0 r HG) as (rc' & h & d0 & fs0 & h0 & l0 & Ec' & HR & HI & Hh & Hm & Ht & Hmd & HF2 & HGm).
      { intros p. apply (l_forced p (f0 p) (f1 p)); [| |exact (Hf0 eq_refl)].
        - apply (Hok t0). right. now left.
        - apply (Hok t1). now left. }
      rewrite E in Ec'. injection Ec' as <-. exists ((t0, f0) :: r0). split; [now apply fits_pop in Hfit|]. split.
      -- intros t f Hf. apply (Hok t). now right.
      -- right. right. constructor. exists t0, f0, r0, t1, h, d0, fs0, h0, l0. repeat (split; [assumption || reflexivity|]). exact HGm.
    * exfalso. destruct HM as (t1 & f1 & recs0 & tt & h & d0 & fs0 & h0 & l0 & _ & _ & _ & _ & _ & _ & _ & _ & HG).
      destruct (mid_markers _ _ _ _ _ _ _ _ HG) as [HX|HX]; rewrite HX in Hlen; discriminate.
Qed.

(** complete: everything held is restored *)
Lemma complete_restored l recs r : fits l recs -> GInv recs r -> all_restored patch same l r.
Proof using deq_ok.
  intros Hfit HG t src o Hin.
  assert (Hrec : exists f, In (t, f) recs /\ forall p, updated (o p) -> same_state same (node_at src p) (f p)).
  { clear HG. unfold fits in Hfit. assert (Hrev : forall f, In (t, f) (rev recs) -> In (t, f) recs) by (intros f Hf; now apply in_rev in Hf).
    revert Hfit Hin Hrev. generalize (rev recs). induction l as [|x l IHl]; intros l2 H2 Hin Hrev; inversion H2 as [|? [t' f'] ? l3 [Et Hp] H3]; subst; [destruct Hin|].
    destruct Hin as [->|Hin].
    - cbn in Et, Hp. subst t'. exists f'. split; [apply Hrev; now left|exact Hp].
    - apply (IHl l3); auto. intros f Hf. apply Hrev. now right. }
  destruct Hrec as (f & Hf & Hp).
  destruct (restore_ginv patch sha1 loose deq deq_ok P recs r t f [] HG Hf) as (lt & Hsl & Hmd & E).
  exists (recall_tree [] lt f). split; [exact E|]. split; [apply listing_sorted; now apply recall_sorted|]. split.
  - intros x Hx. eapply (recall_present sha1); eauto.
  - intros p Hu. rewrite (recall_at sha1) by assumption. cbn. auto.
Qed.

Lemma fits_newest l t1 f1 recs : fits l ((t1, f1) :: recs) -> newest l t1.
Proof using.
  unfold fits. cbn [rev]. intros H. destruct (last_case l) as [E|(l' & [[t src] o] & E)]; rewrite E in H.
  - inversion H as [E0|]. destruct (rev recs); discriminate.
  - exists l', src, o. rewrite E. apply Forall2_app_inv_l in H as (a & b & A & B & Eq).
    inversion B as [|? ? ? ? [Et _] B']; subst. inversion B'; subst. apply app_inj_tail in Eq as [_ Eq].
    subst. cbn in Et. now subst.
Qed.
(** ** with killed removals: files of removed sessions may be left *)
Notation clean := (@clean attr).
Notation junk := (@junk attr).
Definition jstate (recs : hrec) (r : @repo attr) : Prop :=
  state recs r \/ exists rt, junk rt r /\ state recs (clean rt r).

Lemma state_relisted recs r r' : state recs r -> relisted r r' -> state recs r'.
Proof using.
  intros Hst Hl. destruct Hst as [[-> Hpl]|[[Hne HG]|HM]].
  - left. split; [reflexivity|]. eapply plain_relist; eauto.
  - right. left. split; [exact Hne|]. eapply relist_ginv; eauto.
  - right. right. eapply mid_relist; eauto.
Qed.
Lemma state_pos recs r t1 : state recs r -> markers (r_data r) = [t1] -> 0 < t1.
Proof using deq_ok.
  intros [[-> [Hpl _]]|[[Hne HG]|[HM]]] Em.
  - rewrite (plain_markers r Hpl) in Em. discriminate.
  - destruct recs as [|[t f] recs]; [congruence|]. rewrite (ginv_markers _ _ _ _ HG) in Em. injection Em as <-. eapply ginv_pos; eauto.
  - destruct HM as (t & f1 & recs0 & tt & h & d0 & fs0 & h0 & l0 & _ & _ & _ & _ & _ & _ & _ & _ & HG).
    destruct (mid_markers _ _ _ _ _ _ _ _ HG) as [HX|HX]; rewrite HX in Em; discriminate.
Qed.
Lemma state_good_le recs r rt : state recs r -> markers (r_data r) <> [] -> rt <= last_good (r_data r) ->
  Forall (fun t => rt <= t) (markers (r_data r)).
Proof using deq_ok.
  intros [[-> [Hpl _]]|[[Hne HG]|[HM]]] Hn Hrt.
  - now rewrite (plain_markers r Hpl) in Hn.
  - destruct recs as [|[t f] recs]; [congruence|]. unfold last_good, two_markers, mirror_time in Hrt. rewrite (ginv_markers _ _ _ _ HG) in *. auto.
  - destruct HM as (t & f1 & recs0 & tt & h & d0 & fs0 & h0 & l0 & _ & _ & _ & _ & _ & Ht & _ & _ & HG).
    unfold last_good in Hrt. rewrite (mid_two _ _ _ _ _ _ _ _ Ht HG) in Hrt.
    destruct (mid_markers _ _ _ _ _ _ _ _ HG) as [HX|HX]; rewrite HX; repeat constructor; lia.
Qed.
Lemma asc_nodup (fs : list (@mfile (meta attr))) : asc fs -> NoDup (map mf_time fs).
Proof using.
  induction 1 as [|f fs Hs IH F]; cbn; constructor; auto. rewrite Forall_forall in F. intros Hi. apply in_map_iff in Hi as (g & E & Hg).
  specialize (F g Hg). lia.
Qed.
Lemma nodup_filter {A B} (g : A -> B) (f : A -> bool) l : NoDup (map g l) -> NoDup (map g (filter f l)).
Proof using.
  induction l as [|x l IH]; cbn; auto. intros H. inversion H as [|? ? Hi Hn]; subst. destruct (f x); cbn; auto. constructor; auto.
  intros Hx. apply Hi. apply in_map_iff in Hx as (y & E & Hy). apply filter_In in Hy as [Hy _]. apply in_map_iff. eauto.
Qed.
Lemma state_nodup recs r rt : state recs r -> markers (r_data r) <> [] -> rt <= last_good (r_data r) -> junk_ok rt (mfiles (r_data r)).
Proof using deq_ok.
  intros [[-> [Hpl _]]|[[Hne HG]|[HM]]] Hn Hrt; unfold junk_ok, junkf.
  - now rewrite (plain_markers r Hpl) in Hn.
  - destruct recs as [|[t f] recs]; [congruence|]. destruct HG as [(h & HR & _) _]. destruct (reach_inv deq deq_ok h _ HR) as [fs HI].
    apply nodup_filter. eapply Permutation_NoDup; [apply Permutation_map; symmetry; apply (i_perm _ _ _ _ HI)|]. apply asc_nodup, (i_asc _ _ _ _ HI).
  - destruct HM as (t & f1 & recs0 & tt & h & d0 & fs0 & h0 & l0 & _ & _ & HI & _ & _ & Ht & _ & _ & HG).
    unfold last_good in Hrt. rewrite (mid_two _ _ _ _ _ _ _ _ Ht HG) in Hrt.
    pose proof (asc_nodup _ (i_asc _ _ _ _ HI)) as Hnd. rewrite map_app in Hnd. apply nodup_app in Hnd as (Hnd & _).
    assert (HX : exists ex, Permutation (mfiles (r_data r)) (fs0 ++ ex) /\ Forall (fun f => rt <= mf_time f) ex).
    { destruct HG as [[_ HMM] _]. destruct HMM as [(ex & HP & HE)|(fs2 & h2 & l2 & l & E1 & _ & _ & HP)].
      - exists (mk_mf t KSnap (recs_of l0) :: ex). split; [now rewrite <- app_assoc in HP|]. constructor; [exact Hrt|].
        eapply Forall_impl; [|exact HE]. intros f [E|[E _]]; lia.
      - apply app_inj_tail in E1 as [<- _]. eexists. split; [exact HP|]. repeat constructor; cbn; lia. }
    destruct HX as (ex & HP & HE).
    eapply Permutation_NoDup; [apply Permutation_map; apply filter_perm; symmetry; exact HP|]. rewrite filter_app, (filter_none _ ex).
    + rewrite app_nil_r. now apply nodup_filter.
    + eapply Forall_impl; [|exact HE]. intros f Hf. now apply Z.ltb_ge.
Qed.
Lemma junk_ok_more rt c (l : list (@mfile (meta attr))) : junk_ok rt l -> junk_ok c (keepf rt l) -> junk_ok (Z.max rt c) l.
Proof using.
  intros H1 H2. unfold junk_ok, junkf in *.
  assert (HJ : junk_ok rt (filter (fun f => mf_time f <? Z.max rt c) l)).
  { unfold junk_ok, junkf. rewrite filter_twice. erewrite filter_ext; [exact H1|]. intros f. cbn.
    destruct (mf_time f <? rt) eqn:E; [|reflexivity]. apply Z.ltb_lt in E. cbn. apply Z.ltb_lt. lia. }
  apply (nodup_parts rt _ HJ). unfold keepf in *. rewrite filter_twice in *. erewrite filter_ext; [exact H2|]. intros f. cbn.
  destruct (Z.ltb_spec (mf_time f) rt), (Z.ltb_spec (mf_time f) (Z.max rt c)), (Z.ltb_spec (mf_time f) c); cbn; try reflexivity; lia.
Qed.
Lemma cut_junk rt u r r' : cut_remove rt u r r' -> junk_ok rt (mfiles (r_data r)) -> markers (r_data r) <> [] ->
  Forall (fun t => rt <= t) (markers (r_data r)) -> junk rt r' /\ relisted (gremove rt u r) (clean rt r').
Proof using.
  intros (H1 & H2 & H3 & H4 & H5) HJ Hn Hm.
  assert (Em : markers (r_data r') = markers (r_data r)).
  { clear -H1 Hm. induction H1 as [|x l l' H IH|x l l' Ho H IH]; [reflexivity| |].
    - inversion Hm; subst. f_equal. auto.
    - inversion Hm; subst. apply Z.ltb_lt in Ho. lia. }
  split.
  - constructor; [now rewrite Em|now rewrite Em|]. unfold junk_ok, junkf in *. eapply thinned_nodup; eauto.
  - unfold relisted. cbn. rewrite Em, H4, andb_true_r. split; [reflexivity|].
    split; [rewrite <- (thinned_filter _ _ _ H2); apply Permutation_refl|]. split; [apply (thinned_filter _ _ _ H3)|]. split; [reflexivity|].
    intros p. destruct (H5 p) as [E1 E2]. split; [exact E1|]. rewrite <- (thinned_filter _ _ _ E2). apply Permutation_refl.
Qed.
Lemma thinned_more {A} (f g : A -> bool) l l' : (forall x, f x = true -> g x = true) -> thinned f l l' -> thinned g l l'.
Proof using. intros H. induction 1; [constructor|now constructor|]. apply Th_del; auto. Qed.
Lemma cut_clean rt c u r r' : junk rt r -> cut_remove c u r r' -> junk_ok c (keepf rt (mfiles (r_data r))) ->
  Forall (fun t => c <= t) (markers (r_data r)) ->
  junk (Z.max rt c) r' /\ relisted (gremove c u (clean rt r)) (clean (Z.max rt c) r').
Proof using.
  intros HJ HC HD Hm.
  assert (HC' : cut_remove (Z.max rt c) u r r').
  { destruct HC as (H1 & H2 & H3 & H4 & H5).
    assert (HM : forall x, (x <? c) = true -> (x <? Z.max rt c) = true) by (intros x Hx; apply Z.ltb_lt in Hx; apply Z.ltb_lt; lia).
    split; [eapply thinned_more; [|exact H1]; intros x; apply HM|]. split; [eapply thinned_more; [|exact H2]; intros x; apply HM|].
    split; [eapply thinned_more; [|exact H3]; intros x; apply HM|]. split; [exact H4|]. intros p. destruct (H5 p) as [E1 E2]. split; [exact E1|].
    eapply thinned_more; [|exact E2]. intros x; apply HM. }
  destruct (cut_junk (Z.max rt c) u r r' HC') as [A B].
  - apply junk_ok_more; [apply (j_dup _ _ HJ)|exact HD].
  - apply (j_some _ _ HJ).
  - pose proof (j_marks _ _ HJ) as Hr. apply Forall_forall. intros x Hx. rewrite Forall_forall in Hm, Hr. specialize (Hm x Hx). specialize (Hr x Hx). cbn in Hr. lia.
  - split; [exact A|].
    assert (HX : relisted (gremove c u (clean rt r)) (gremove (Z.max rt c) u r)).
    { assert (HE : forall x, negb (x <? c) && negb (x <? rt) = negb (x <? Z.max rt c)).
      { intros x. destruct (Z.ltb_spec x c), (Z.ltb_spec x rt), (Z.ltb_spec x (Z.max rt c)); cbn; try reflexivity; lia. }
      unfold relisted. cbn. rewrite andb_true_r.
      split; [rewrite filter_twice; apply filter_ext; intros x; now rewrite HE|].
      split; [rewrite filter_twice; erewrite filter_ext; [apply Permutation_refl|]; intros x; cbn; now rewrite <- HE|].
      split; [rewrite filter_twice; apply filter_ext; intros x; now rewrite HE|]. split; [reflexivity|].
      intros p. split; [reflexivity|]. rewrite filter_twice. erewrite filter_ext; [apply Permutation_refl|]; intros x; cbn; now rewrite <- HE. }
    destruct HX as (X1 & X2 & X3 & X4 & X5), B as (B1 & B2 & B3 & B4 & B5). unfold relisted.
    rewrite B1, X1, B3, X3, B4, X4. split; [reflexivity|]. split; [eapply perm_trans; eauto|]. split; [reflexivity|]. split; [reflexivity|].
    intros p. destruct (X5 p) as [Y1 Y2], (B5 p) as [Z1 Z2]. split; [congruence|]. eapply perm_trans; eauto.
Qed.

Lemma clean_good rt r : junk rt r -> last_good (r_data (clean rt r)) = last_good (r_data r).
Proof using. intros HJ. unfold last_good, two_markers, mirror_time. now rewrite (clean_marks rt r HJ). Qed.
Lemma state_nonempty recs r : state recs r -> recs <> [] -> markers (r_data r) <> [].
Proof using deq_ok.
  intros [[-> _]|[[Hne HG]|[HM]]] Hn; [congruence| |].
  - destruct recs as [|[t f] recs]; [congruence|]. rewrite (ginv_markers _ _ _ _ HG). discriminate.
  - destruct HM as (t & f1 & recs0 & tt & h & d0 & fs0 & h0 & l0 & _ & _ & _ & _ & _ & _ & _ & _ & HG).
    destruct (mid_markers _ _ _ _ _ _ _ _ HG) as [HX|HX]; rewrite HX; discriminate.
Qed.
Lemma state_marked recs r : state recs r -> markers (r_data r) <> [] -> recs <> [].
Proof using.
  intros [[-> [Hpl _]]|[[Hne HG]|[HM]]] Hn; auto.
  - now rewrite (plain_markers r Hpl) in Hn.
  - destruct HM as (t & f1 & recs0 & tt & h & d0 & fs0 & h0 & l0 & -> & _). discriminate.
Qed.

Lemma f2_length {A B} (R : A -> B -> Prop) l l' : Forall2 R l l' -> length l = length l'.
Proof using. induction 1; cbn; congruence. Qed.
Lemma fits_nonempty hl recs : fits hl recs -> (hl <> [] <-> recs <> []).
Proof using.
  unfold fits. intros H. apply f2_length in H. rewrite rev_length in H. destruct hl, recs; cbn in H; try discriminate; split; congruence.
Qed.
Lemma gremove_junk rt c u r : junk rt r -> Forall (fun t => c <= t) (markers (r_data r)) -> junk rt (gremove c u r).
Proof using.
  intros [A B C] Hm.
  assert (E : markers (r_data (gremove c u r)) = markers (r_data r)).
  { cbn. apply filter_all. eapply Forall_impl; [|exact Hm]. intros t Ht. now apply ge_keep. }
  constructor; [now rewrite E|now rewrite E|]. unfold junk_ok, junkf in *. cbn. rewrite filter_twice.
  erewrite filter_ext; [apply nodup_filter with (f := fun f => negb (mf_time f <? c)) in C; rewrite filter_twice in C; exact C|].
  intros f. cbn. apply andb_comm.
Qed.

Lemma jstate_step hl recs r a r' : fits hl recs -> all_okv recs -> jstate recs r ->
  Forall (listing fst) (source_of a) -> act a r r' ->
  (forall src, In src (source_of a) -> exists b, In b ALL /\ In src (source_of b)) ->
  (forall t src o zd p, a = ASession t src o zd \/ a = AFirst t src o zd ->
     match o p with OIncFail _ | ORenameFail | OSpecialFail _ => False | _ => True end) ->
  (a = AForce -> In AForce ALL) -> (a = AForce -> state recs r \/ (2 <= length hl)%nat) ->
  exists recs', fits (holding hl a) recs' /\ all_okv recs' /\ jstate recs' r'.
Proof using deq_ok HS.
  intros Hfit Hok Hj Hw Ha Hb Hout Hf0 Hcare.
  (* a killed removal is like a completed one *)
  assert (Hrem : forall rt u rc, state recs rc -> markers (r_data rc) <> [] -> rt <= last_good (r_data rc) ->
    exists recs', fits (filter (fun x => rt <=? fst (fst x)) hl) recs' /\ all_okv recs' /\ state recs' (gremove rt u rc)).
  { intros rt u rc Hst Hn Hrt. apply (state_step hl recs rc (ARemove rt u) (gremove rt u rc)); auto.
    - constructor.
    - cbn. auto.
    - intros src [].
    - intros t src o zd p [E|E]; discriminate.
    - discriminate.
    - discriminate. }
  destruct Hj as [Hst|(rt & HJ & Hst)].
  { destruct a as [t src o zd|t src o z zd kd kp|t src o zd|y|used z|used z kd kp|c u|c u|].
    8: { cbn in Ha. destruct Ha as (Hmk & Hrt & HC). destruct (Hrem c u r Hst Hmk Hrt) as (recs' & A & B & C).
      exists recs'. split; [exact A|]. split; [exact B|]. right. exists c.
      destruct (cut_junk c u r r' HC (state_nodup _ _ _ Hst Hmk Hrt) Hmk (state_good_le _ _ _ Hst Hmk Hrt)) as [D E].
      split; [exact D|]. eapply state_relisted; eauto. }
    all: edestruct (state_step hl recs r) as (recs' & A & B & C); [exact Hfit|exact Hok|exact Hst|exact Hw|exact Ha|exact Hb|exact Hout|exact Hf0|discriminate|];
      exists recs'; split; [exact A|split; [exact B|now left]]. }
  pose proof (clean_marks rt r HJ) as Emk. pose proof (j_some _ _ HJ) as Hsome.
  assert (Hpos : forall t1, markers (r_data r) = [t1] -> 0 < t1) by (intros t1 E; rewrite <- Emk in E; eapply state_pos; eauto).
  assert (Hne : recs <> []) by (apply (state_marked _ _ Hst); now rewrite Emk).
  assert (Hhl : hl <> []) by (now apply (fits_nonempty _ _ Hfit)).
  assert (Hfin : forall recs' rc', fits (holding hl a) recs' -> holding hl a <> [] -> all_okv recs' -> state recs' rc' ->
     relisted rc' (clean rt r') -> (markers (r_data rc') <> [] -> junk rt r') ->
     exists recs', fits (holding hl a) recs' /\ all_okv recs' /\ jstate recs' r').
  { intros recs' rc' A A1 B C D E. exists recs'. split; [exact A|]. split; [exact B|]. right. exists rt. split.
    - apply E. eapply state_nonempty; eauto. now apply (fits_nonempty _ _ A).
    - eapply state_relisted; eauto. }
  assert (Hstep : forall b rc', holding hl b = holding hl a -> source_of b = source_of a -> act b (clean rt r) rc' ->
     (forall t src o zd, b = ASession t src o zd -> exists zd', a = ASession t src o zd') ->
     (forall t src o zd, b <> AFirst t src o zd) -> (b = AForce -> a = AForce) -> (forall c u, b <> ARemoveKilled c u) ->
     exists recs', fits (holding hl a) recs' /\ all_okv recs' /\ state recs' rc').
  { intros b rc' Eh Es Hact H1 H2 H3 H4. rewrite <- Eh. apply (state_step hl recs (clean rt r) b rc'); auto.
    - now rewrite Es.
    - now rewrite Es.
    - intros t src o zd p [E|E]; [|now apply H2 in E]. destruct (H1 _ _ _ _ E) as [zd' E']. eapply Hout. eauto. }
  destruct a as [t src o zd|t src o z zd kd kp|t src o zd|y|used z|used z kd kp|c u|c u|]; cbn [M_Life.act] in Ha.
  - destruct Ha as [Hmk E]. destruct (gsession_clean delta sha1 same deq rt r t src o zd r' HJ Hpos E) as (n & rc' & Ec & Hl & Hj').
    destruct (Hstep (ASession t src o (with_limit n zd)) rc') as (recs' & A & B & C); try discriminate; auto.
    + cbn [M_Life.act]. rewrite Emk. auto.
    + intros t' src' o' zd' [= <- <- <- <-]. eauto.
    + apply (Hfin recs' rc'); auto. cbn. now destruct hl.
  - destruct (gcrash_clean delta sha1 same deq rt r t src o z zd kd kp r' HJ Hpos Ha) as (n & rc' & Ec & Hl & Hj').
    destruct (Hstep (AKilled t src o z (with_limit n zd) kd kp) rc') as (recs' & A & B & C); try discriminate; auto.
    apply (Hfin recs' rc'); auto.
  - exfalso. destruct Ha as (found & Hsc & E). unfold gfirst, clean_initial, failed_initial in E.
    destruct (markers (r_data r)) as [|m ms] eqn:Em; [congruence|].
    destruct (backup_start t false false (r_data r)) as [[x|]| |] eqn:Eb; try discriminate.
    destruct (start_some (r_data r) t None Eb) as (t1 & _ & X & _); [rewrite Em; discriminate|rewrite Em; exact Hpos|discriminate].
  - exfalso. destruct Ha as (found & Hsc & E). unfold first_crash, clean_initial, failed_initial in E.
    destruct (markers (r_data r)) as [|m ms] eqn:Em; [congruence|].
    destruct (backup_start (y_time y) false false (r_data r)) as [[x|]| |] eqn:Eb; try discriminate.
    destruct (start_some (r_data r) (y_time y) None Eb) as (t1 & _ & X & _); [rewrite Em; discriminate|rewrite Em; exact Hpos|discriminate].
  - destruct Ha as (Hnr & good & l & prog & Hp & ->). destruct (plan_iff patch sha1 loose rt r used z good l HJ) as (P1 & P2 & P3).
    destruct (proj1 P1 (ex_intro _ _ Hp)) as [progc Hpc]. destruct (P3 _ Hp) as [Hge Hgood].
    destruct (regress_full_clean rt r good l prog progc HJ Hge Hgood (P2 _ _ Hp Hpc)) as [Hl Hj'].
    destruct (Hstep (ARegress used z) (regress_full good l progc (clean rt r))) as (recs' & A & B & C); try discriminate; auto.
    + cbn [M_Life.act]. split; [|eauto]. unfold needs_regress in *. rewrite Emk, (clean_used rt r). exact Hnr.
    + eapply Hfin; eauto.
  - destruct Ha as (Hnr & good & l & prog & Hp & ->). destruct (plan_iff patch sha1 loose rt r used z good l HJ) as (P1 & P2 & P3).
    destruct (proj1 P1 (ex_intro _ _ Hp)) as [progc Hpc]. destruct (P3 _ Hp) as [Hge Hgood].
    destruct (regress_part_clean rt r good l prog progc kd kp HJ Hge Hgood (P2 _ _ Hp Hpc)) as [Hl Hj'].
    destruct (Hstep (ARegressKilled used z kd kp) (regress_part good l progc kd kp (clean rt r))) as (recs' & A & B & C); try discriminate; auto.
    + cbn [M_Life.act]. split; [|eauto]. unfold needs_regress in *. rewrite Emk, (clean_used rt r). exact Hnr.
    + eapply Hfin; eauto.
  - destruct Ha as (Hmk & Hrt & ->). assert (Hrt' : c <= last_good (r_data (clean rt r))) by now rewrite clean_good.
    assert (Hmk' : markers (r_data (clean rt r)) <> []) by now rewrite Emk.
    destruct (Hrem c u (clean rt r) Hst Hmk' Hrt') as (recs' & A & B & C). exists recs'. split; [exact A|]. split; [exact B|]. right. exists rt. split.
    + apply gremove_junk; [exact HJ|]. rewrite <- Emk. eapply state_good_le; eauto.
    + eapply state_relisted; [exact C|]. apply gremove_clean.
  - destruct Ha as (Hmk & Hrt & HC). assert (Hrt' : c <= last_good (r_data (clean rt r))) by now rewrite clean_good.
    assert (Hmk' : markers (r_data (clean rt r)) <> []) by now rewrite Emk.
    destruct (Hrem c u (clean rt r) Hst Hmk' Hrt') as (recs' & A & B & C). exists recs'. split; [exact A|]. split; [exact B|]. right.
    exists (Z.max rt c). destruct (cut_clean rt c u r r' HJ HC) as [D E].
    + exact (state_nodup _ _ _ Hst Hmk' Hrt').
    + rewrite <- Emk. eapply state_good_le; eauto.
    + split; [exact D|]. eapply state_relisted; eauto.
  - destruct Ha as [Hlen E]. destruct (Hcare eq_refl) as [Hst0|H2].
    { destruct (state_step hl recs r AForce r') as (recs' & A & B & C); auto; try discriminate; [cbn; auto|]. exists recs'. split; [exact A|]. split; [exact B|now left]. }
    assert (HG2 : exists rc, gforce (clean rt r) = Some rc).
    { assert (Hl2 : (2 <= length recs)%nat) by (apply f2_length in Hfit; rewrite rev_length in Hfit; lia).
      destruct Hst as [[-> _]|[[_ HG]|[HM]]]; [congruence| |].
      - destruct recs as [|[t1 f1] [|[t0 f0] r0]]; cbn in Hl2; try lia.
        destruct (forced_gmid patch sha1 loose deq deq_ok P t1 f1 t0 f0 r0 (clean rt r) HG) as (rc' & h & d0 & fs0 & h0 & l0 & Ec' & _); [|eauto].
        intros p. apply (l_forced p (f0 p) (f1 p)); [| |exact (Hf0 eq_refl)].
        + apply (Hok t0). right. now left.
        + apply (Hok t1). now left.
      - exfalso. destruct HM as (t1 & f1 & recs0 & tt & h & d0 & fs0 & h0 & l0 & _ & _ & _ & _ & _ & _ & _ & _ & HG).
        destruct (mid_markers _ _ _ _ _ _ _ _ HG) as [HX|HX]; rewrite Emk in HX; rewrite HX in Hlen; discriminate. }
    destruct HG2 as [rc Erc]. destruct (gforce_clean rt r rc HJ Erc) as (r1 & E1 & Hl & Hj'). rewrite E in E1. injection E1 as <-.
    destruct (Hstep AForce rc) as (recs' & A & B & C); try discriminate; auto.
    + cbn [M_Life.act]. rewrite Emk. auto.
    + apply (Hfin recs' rc); auto. cbn. destruct hl as [|x [|y hl]]; cbn in *; try lia. discriminate.
Qed.

Lemma careful_pre acts a : careful (acts ++ [a]) -> careful acts /\
  (a = @AForce attr -> (exists rt u, In (ARemoveKilled rt u) acts) -> (2 <= length (holds_after acts))%nat).
Proof using.
  intros H. split.
  - intros pre post ->. apply (H pre (post ++ [a])). now rewrite <- app_assoc.
  - intros ->. now apply (H acts []).
Qed.
Lemma killed_dec (acts : list (@action attr)) : (exists rt u, In (ARemoveKilled rt u) acts) \/ forall rt u, ~ In (ARemoveKilled rt u) acts.
Proof using.
  induction acts as [|a acts IH]; [right; intros ? ? []|]. destruct IH as [(rt & u & H)|IH]; [left; exists rt, u; now right|].
  destruct a; try (right; intros ? ? [E|E]; [discriminate|eapply IH; exact E]). left. exists rt, used. now left.
Qed.

Lemma life_state acts r : life acts r -> careful acts -> (forall a, In a acts -> In a ALL) ->
  exists recs, fits (holds_after acts) recs /\ all_okv recs /\ jstate recs r /\
    ((forall rt u, ~ In (ARemoveKilled rt u) acts) -> state recs r).
Proof using deq_ok HS.
  induction 1 as [|acts r a r' HL IH Hw Ha|acts r r' HL IH Hl]; intros HC HA.
  - assert (HX : state [] (plain_dir m0)).
    { left. split; [reflexivity|]. split; [apply plain_dir_plain|]. split; [apply plain_dir_finite|]. intros p. cbn. apply src_ok2. now left. }
    exists []. split; [constructor|]. split; [intros t f []|]. split; [now left|auto].
  - destruct (careful_pre _ _ HC) as [HC1 HC2].
    destruct IH as (recs & Hfit & Hok & Hj & Hs); [exact HC1|intros b Hb; apply HA, in_app_iff; now left|].
    assert (Hin : In a ALL) by (apply HA, in_app_iff; right; now left).
    assert (Hh : holds_after (acts ++ [a]) = holding (holds_after acts) a) by (unfold holds_after; now rewrite fold_left_app).
    assert (Hout : forall t src o zd p, a = ASession t src o zd \/ a = AFirst t src o zd ->
       match o p with OIncFail _ | ORenameFail | OSpecialFail _ => False | _ => True end).
    { intros t src o zd p E. apply (o_out _ _ _ _ _ _ _ _ HS t src o zd p). destruct E as [<-|<-]; auto. }
    rewrite Hh. destruct (killed_dec (acts ++ [a])) as [HK|HK].
    + destruct (jstate_step _ _ _ _ _ Hfit Hok Hj Hw Ha) as (recs' & A & B & C); auto.
      * eauto.
      * now intros <-.
      * intros E. destruct (killed_dec acts) as [HK0|HK0]; [right; auto|left; auto].
      * exists recs'. split; [exact A|]. split; [exact B|]. split; [exact C|]. intros HN. destruct HK as (rt & u & HK). now apply HN in HK.
    + destruct (state_step _ recs _ _ _ Hfit Hok (Hs (fun rt u Hi => HK rt u (proj2 (in_app_iff _ _ _) (or_introl Hi)))) Hw Ha) as (recs' & A & B & C); auto.
      * eauto.
      * now intros <-.
      * intros rt u ->. apply (HK rt u). apply in_app_iff. right. now left.
      * exists recs'. split; [exact A|]. split; [exact B|]. split; [now left|auto].
  - destruct (IH HC HA) as (recs & Hfit & Hok & Hj & Hs). exists recs. split; [exact Hfit|]. split; [exact Hok|]. split.
    + destruct Hj as [Hst|(rt & HJ & Hst)].
      * left. eapply state_relisted; eauto.
      * right. exists rt. split; [eapply relisted_junk; eauto|]. eapply state_relisted; [exact Hst|]. now apply relisted_clean.
    + intros HN. eapply state_relisted; eauto.
Qed.

(** ** what the user sees *)
Definition moment (hl : list (Z * @tree attr * (idx -> outcome attr))) (r : @repo attr) : Prop :=
  match markers (r_data r) with
  | [] => hl = [] /\ forall t src o zd, 0 < t -> exists r', act (AFirst t src o zd) r r'
  | [t1] => newest hl t1 /\ all_restored patch same hl r /\
      forall t src o zd, listing fst src -> t1 < t -> exists r', act (ASession t src o zd) r r'
  | [a; b] => a <> b /\ newest hl (Z.min a b) /\
      (incs_used (r_data r) = true -> needs_regress (r_data r) false false = NRYes) /\
      forall used z,
        (exists good l prog, regress_plan patch sha1 loose used z r good l prog) /\
        forall good l prog, regress_plan patch sha1 loose used z r good l prog ->
          let r' := regress_full good l prog r in
          markers (r_data r') = [Z.min a b] /\ incs_used (r_data r') = used /\ all_restored patch same hl r'
  | _ => False
  end.

Lemma moment_state hl recs r : fits hl recs -> all_okv recs -> state recs r -> moment hl r.
Proof using deq_ok HS.
  unfold moment. intros Hfit Hok [[-> Hpl]|[[Hne HG]|HM]].
  - destruct Hpl as (Hp & Hfin & _). rewrite (plain_markers r Hp). split.
    + now inversion Hfit.
    + intros t src o zd Ht.
      destruct (first_accepted delta sha1 same deq fa r t src o zd Hp Hfin Ht) as (found & r' & H1 & H2). exists r', found. auto.
  - destruct recs as [|[t1 f1] recs]; [congruence|].
    pose proof (ginv_markers t1 f1 recs r HG) as Em. rewrite Em.
    split; [exact (fits_newest _ _ _ _ Hfit)|]. split.
    + eapply complete_restored; eauto.
    + intros t src o zd Hl Ht.
      destruct (session_exists delta patch sha1 same loose deq deq_ok P _ r t src o zd Hne HG Hl) as [r' E].
      { unfold mirror_time. rewrite Em. exact Ht. }
      exists r'. split; [|exact E]. rewrite Em. discriminate.
  - pose proof HM as [(t1 & f1 & recs0 & t & h & d0 & fs0 & h0 & l0 & -> & _ & _ & _ & _ & Ht & _ & _ & HG)].
    assert (Hmk : markers (r_data r) = [t; t1] \/ markers (r_data r) = [t1; t]) by (eapply mid_markers; exact HG).
    assert (Hmain : newest hl t1 /\ forall used z,
        (exists good l prog, regress_plan patch sha1 loose used z r good l prog) /\
        forall good l prog, regress_plan patch sha1 loose used z r good l prog ->
          let r' := regress_full good l prog r in
          markers (r_data r') = [t1] /\ incs_used (r_data r') = used /\ all_restored patch same hl r').
    { split; [exact (fits_newest _ _ _ _ Hfit)|]. intros used z. split.
      - eapply mid_plan_exists; eauto.
      - intros good l prog Hp. destruct (mid_plan_ok _ _ _ _ _ _ _ HM Hp) as (_ & _ & HG' & Hu).
        cbn zeta. split; [exact (ginv_markers _ _ _ _ HG')|]. split; [exact Hu|]. eapply complete_restored; eauto. }
    destruct Hmain as [Hnw Hrest].
    destruct Hmk as [Hmk|Hmk]; rewrite Hmk.
    + replace (Z.min t t1) with t1 by lia. split; [lia|]. split; [exact Hnw|]. split; [|exact Hrest].
      intros Hu. unfold needs_regress. now rewrite Hu, Hmk.
    + replace (Z.min t1 t) with t1 by lia. split; [lia|]. split; [exact Hnw|]. split; [|exact Hrest].
      intros Hu. unfold needs_regress. now rewrite Hu, Hmk.
Qed.

Lemma restored_time rt r t lt : restore_tree patch t [] (clean rt r) = Some lt -> rt <= t.
Proof using.
  unfold restore_tree. destruct (mirror_time_must _); [|discriminate].
  destruct (meta_at_time t [] _) eqn:E; try discriminate. intros _. destruct (find_clean _ _ _ E) as (f & Hf & <-).
  cbn in Hf. apply filter_In in Hf as [_ Hf]. apply negb_true_iff, Z.ltb_ge in Hf. exact Hf.
Qed.
Lemma restored_clean hl rt r : junk rt r -> all_restored patch same hl (clean rt r) -> all_restored patch same hl r.
Proof using.
  intros HJ H t src o Hin. destruct (H t src o Hin) as (lt & E & R). exists lt. split; [|exact R].
  rewrite <- (restore_clean patch rt r t [] HJ); [exact E|]. eapply restored_time; eauto.
Qed.
Lemma relisted_restored hl r r' recs : recs <> [] -> fits hl recs -> GInv recs r -> relisted r r' -> all_restored patch same hl r'.
Proof using deq_ok. intros Hne Hfit HG Hl. refine (complete_restored hl recs r' Hfit _). eapply relist_ginv; eauto. Qed.

Lemma moment_jstate hl recs r : fits hl recs -> all_okv recs -> jstate recs r -> moment hl r.
Proof using deq_ok HS.
  intros Hfit Hok [Hst|(rt & HJ & Hst)]; [eapply moment_state; eauto|].
  pose proof (moment_state _ _ _ Hfit Hok Hst) as HM. unfold moment in *.
  pose proof (clean_marks rt r HJ) as Emk. rewrite Emk in HM.
  destruct (markers (r_data r)) as [|t1 [|t2 [|t3 ms]]] eqn:Em; [|..|exact HM].
  - pose proof (j_some _ _ HJ). congruence.
  - destruct HM as (A & B & C). split; [exact A|]. split; [now apply restored_clean with rt|].
    intros t src o zd Hl Ht. destruct (C t src o zd Hl Ht) as (rc' & _ & Ec).
    destruct (gsession_junk delta sha1 same deq rt r t src o zd (dn_limit zd) rc' HJ) as [r' E].
    + intros t1' E. eapply state_pos; [exact Hst|]. rewrite (clean_marks rt r HJ). exact E.
    + destruct zd. exact Ec.
    + exists r'. split; [rewrite Em; discriminate|exact E].
  - destruct HM as (A & B & C & D). split; [exact A|]. split; [exact B|]. split.
    + intros Hu. specialize (C). unfold needs_regress in *. rewrite (clean_used rt r) in C. rewrite Emk in C. rewrite Em. auto.
    + intros used z. destruct (D used z) as [(good & l & progc & Hpc) D2]. split.
      * destruct (plan_iff patch sha1 loose rt r used z good l HJ) as (P1 & _).
        destruct (proj2 P1 (ex_intro _ _ Hpc)) as [prog Hp]. eauto.
      * clear good l progc Hpc. intros good l prog Hp. destruct (plan_iff patch sha1 loose rt r used z good l HJ) as (P1 & P2 & P3).
        destruct (proj1 P1 (ex_intro _ _ Hp)) as [progc Hpc]. destruct (P3 _ Hp) as [Hge Hgood].
        destruct (regress_full_clean rt r good l prog progc HJ Hge Hgood (P2 _ _ Hp Hpc)) as [Hl Hj'].
        destruct (D2 _ _ _ Hpc) as (E1 & E2 & E3). cbn zeta.
        assert (HJ' : junk rt (regress_full good l prog r)) by (apply Hj'; rewrite E1; discriminate).
        split; [|split].
        -- rewrite <- (clean_marks rt _ HJ'). destruct Hl as (-> & _). exact E1.
        -- rewrite <- (clean_used rt). destruct Hl as (_ & _ & _ & -> & _). exact E2.
        -- apply restored_clean with rt; [exact HJ'|].
           pose proof (state_regress _ _ _ _ _ _ _ Hst Hpc) as HMid. destruct (mid_plan_ok _ _ _ _ _ _ _ HMid Hpc) as (_ & Hne' & HG' & _).
           eapply relisted_restored; eauto.
Qed.

(** after a completed session there is one marker *)
Lemma session_one recs r x t src o zd r' : x = ASession t src o zd \/ x = AFirst t src o zd -> In x ALL ->
  all_okv recs -> jstate recs r -> listing fst src -> act x r r' -> markers (r_data r') = [t].
Proof using deq_ok HS.
  intros Hx Hin Hok Hj Hl Ha.
  assert (Ho : forall p, good (o p) /\ forall a, o p <> OSpecialFail a).
  { intros p. pose proof (o_out _ _ _ _ _ _ _ _ HS t src o zd p) as Ho.
    assert (Ho' : match o p with OIncFail _ | ORenameFail | OSpecialFail _ => False | _ => True end) by (apply Ho; destruct Hx as [<-|<-]; auto).
    split; [unfold good; destruct (o p); auto|]. intros a E. now rewrite E in Ho'. }
  assert (Hsrc : forall p, okn (P p) (node_at src p)).
  { intros p. apply okv_okn, src_ok2. right. exists x. split; [exact Hin|]. destruct Hx as [-> | ->]; now left. }
  assert (Hse : forall rc zd rc', state recs rc -> markers (r_data rc) <> [] -> gsession delta sha1 same deq t src o zd rc = Some rc' -> markers (r_data rc') = [t]).
  { intros rc zd' rc' Hst Hm E.
    assert (HX : recs <> [] /\ GInv recs rc).
    { pose proof E as E'. unfold gsession in E'. destruct (backup_start t false false (r_data rc)) eqn:Eb; try discriminate. eapply state_started; eauto. }
    destruct HX as [Hne HG]. apply (ginv_markers t (newf sha1 same recs src o) recs).
    eapply session_ginv with (delta := delta) (same := same) (zd := zd'); eauto using l_nil. }
  destruct Hx as [-> | ->]; cbn in Ha.
  - destruct Ha as [Hm E]. destruct Hj as [Hst|(rt & HJ & Hst)]; [eauto|].
    destruct (gsession_clean delta sha1 same deq rt r t src o zd r' HJ) as (n & rc' & Ec & Hl' & Hj'); [|exact E|].
    { intros t1 E1. rewrite <- (clean_marks rt r HJ) in E1. eapply state_pos; eauto. }
    assert (Em : markers (r_data rc') = [t]). { eapply Hse; eauto. rewrite (clean_marks rt r HJ). exact Hm. }
    rewrite <- (clean_marks rt r'); [destruct Hl' as (-> & _); exact Em|]. apply Hj'. rewrite Em. discriminate.
  - destruct Ha as (found & Hsc & E).
    assert (Hst : state recs r).
    { destruct Hj as [Hst|(rt & HJ & Hst)]; [exact Hst|exfalso].
      assert (Hpos : forall t1, markers (r_data r) = [t1] -> 0 < t1).
      { intros t1 E1. rewrite <- (clean_marks rt r HJ) in E1. eapply state_pos; eauto. }
      pose proof (j_some _ _ HJ) as Hsome. unfold gfirst, clean_initial, failed_initial in E.
      destruct (markers (r_data r)) as [|m ms] eqn:Em; [congruence|].
      destruct (backup_start t false false (r_data r)) as [[y|]| |] eqn:Eb; try discriminate.
      destruct (start_some (r_data r) t None Eb) as (t1 & _ & X & _); [rewrite Em; discriminate|rewrite Em; exact Hpos|discriminate]. }
    destruct (state_first _ _ _ _ _ _ _ _ Hst E) as [-> (Hpl & Hfin & Hmok)].
    apply (ginv_markers t (firstf sha1 same fa (fun p => fst (r_path r p)) src o) []).
    eapply (gfirst_ginv delta patch sha1 same loose deq P l_nil fa); eauto.
    + intros a. apply (o_found _ _ _ _ _ _ _ _ HS a).
    + intros a c. apply (o_found _ _ _ _ _ _ _ _ HS a).
    + intros p. apply okv_okn, Hmok.
Qed.
End Proofs.
