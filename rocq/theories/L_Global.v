(** Lemmas about M_Global *)
From Coq Require Import List ZArith Bool Lia Sorting.Sorted Sorting.Permutation.
From Verif Require Import Base L_Base M_Core L_Core M_Crash L_Crash M_Iter L_Iter L_Tree L_Lookup M_MetaMgr L_MetaMgr L_MetaDir
  P_Iter P_MetaMgr P_Core M_Global S_Global.
Import List ListNotations.
Local Open Scope Z_scope.

Lemma find_is_key {A} (key : A -> idx) p l : find (fun x => idx_eqb (key x) p) l = find_key key p l.
Proof. induction l as [|x l IH]; cbn; [reflexivity|]. now destruct (idx_eqb (key x) p). Qed.

Section G.
Context {attr : Type}.
Variable delta : bytes -> bytes -> bytes.
Variable patch : bytes -> bytes -> option bytes.
Variable sha1 : attr -> bytes -> option bytes.
Variable same : attr -> attr -> bool.
Variable loose : attr -> attr -> bool.
Variable deq : meta attr -> meta attr -> bool.
Hypothesis deq_ok : forall x y, deq x y = true <-> x = y.

Notation node := (node attr).
Notation repo := (@repo attr).
Notation meta_of := (meta_of sha1).
Notation update := (update delta sha1 same).
Notation session := (session delta sha1 same).
Notation session_prog := (session_prog delta sha1 same).
Notation regress_prog := (regress_prog patch sha1 loose).
Notation recorded := (recorded sha1 same).
Notation gsession := (gsession delta sha1 same deq).
Notation gcrash := (gcrash delta sha1 same deq).
Notation new_listing := (new_listing delta sha1 same).

(** ** one path: the order of the increments doesn't matter *)
Definition peq (ps ps' : @pstate attr) : Prop :=
  mirror ps = mirror ps' /\ Permutation (incs ps) (incs ps').

Lemma update_peq prev s o ps ps' : peq ps ps' -> cur_meta ps = cur_meta ps' ->
  fst (fst (update prev s o ps)) = fst (fst (update prev s o ps')) /\
  Permutation (snd (fst (update prev s o ps))) (snd (fst (update prev s o ps'))) /\
  snd (update prev s o ps) = snd (update prev s o ps').
Proof using.
  intros [Hm Hp] Hc. unfold M_Core.update. rewrite Hm, Hc.
  assert (Ha : forall i, Permutation (add_inc prev i (incs ps)) (add_inc prev i (incs ps'))).
  { intros i. unfold add_inc. destruct prev; [|assumption]. now apply Permutation_app_tail. }
  repeat match goal with |- context [match ?x with _ => _ end] =>
    match type of x with
    | bool => destruct x
    | outcome _ => destruct x
    | M_Core.node _ => destruct x
    | option (inc _) => destruct x
    end end; cbn; auto.
Qed.

Lemma session_prog_peq s o z ps ps' : mirror ps = mirror ps' -> cur_meta ps = cur_meta ps' ->
  session_prog s o z ps = session_prog s o z ps'.
Proof using. intros Hm Hc. unfold M_Crash.session_prog. now rewrite Hm, Hc. Qed.

Lemma filter_permut {A} (f : A -> bool) l l' : Permutation l l' -> Permutation (filter f l) (filter f l').
Proof using.
  induction 1; cbn; auto.
  - destruct (f x); auto.
  - destruct (f x), (f y); auto. constructor.
  - etransitivity; eauto.
Qed.

Lemma run_pops_peq t1 l : forall ps ps', peq ps ps' -> peq (run_pops t1 l ps) (run_pops t1 l ps').
Proof using.
  induction l as [|o l IH]; intros ps ps' H; cbn; [assumption|]. apply IH.
  destruct H as [Hm Hp]. destruct o; cbn; split; cbn; auto.
  - apply Permutation_app_tail. now apply filter_permut.
  - now apply filter_permut.
Qed.

Lemma restore_fp_peq t1 t2 ps ps' : StronglySorted tlt (incs ps) -> peq ps ps' ->
  restore_fp patch t1 t2 ps' = restore_fp patch t1 t2 ps.
Proof using.
  intros Hs [Hm Hp]. unfold restore_fp, M_Core.relevant_incs. rewrite <- Hm.
  destruct (incs ps) as [|x l] eqn:E.
  - apply Permutation_nil in Hp. now rewrite Hp.
  - destruct (incs ps') as [|y l'] eqn:E'; [symmetry in Hp; apply Permutation_nil in Hp; discriminate|].
    rewrite (newer_incs_perm t1 (x :: l) (y :: l')), (newer_incs_perm t1 (x :: l) (x :: l)); auto; now symmetry.
Qed.

Lemma regress_prog_peq t1 t2 md z ps ps' : StronglySorted tlt (incs ps) -> peq ps ps' ->
  regress_prog t1 t2 md z ps' = regress_prog t1 t2 md z ps.
Proof using.
  intros Hs Hp. unfold M_Crash.regress_prog. rewrite (restore_fp_peq t1 t2 ps ps' Hs Hp).
  destruct Hp as [Hm _]. now rewrite Hm.
Qed.

(** the metadata don't matter for the operations *)
Lemma run_pops_metas t1 (l : list (pop attr)) : forall m i M M',
  files_of (run_pops t1 l (mk_ps m i M)) = files_of (run_pops t1 l (mk_ps m i M')).
Proof using.
  induction l as [|o l IH]; intros; cbn; [reflexivity|]. destruct o; cbn; apply IH.
Qed.

(** ** listings *)
Lemma find_md_key (l : list (idx * option (meta attr))) p :
  find_md p l = match find_key fst p l with Some x => snd x | None => None end.
Proof using. unfold find_md. now rewrite find_is_key. Qed.
Lemma node_at_key (l : @tree attr) p :
  node_at l p = match find_key fst p l with Some x => snd x | None => Absent end.
Proof using. unfold node_at. now rewrite find_is_key. Qed.

Section NewListing.
Variables (prev : option Z) (st : option (meta attr) -> @pfiles attr -> @pstate attr) (old : list (idx * option (meta attr))) (src : @tree attr)
          (o : idx -> outcome attr) (r : repo).
Hypothesis Hsrc : sorted_by fst src.
Hypothesis Hold : sorted_by fst old.

Let g := fun x => let p := pair_path x in
      match snd (update prev (pair_src x) (o p) (st (pair_md x) (r_path r p))) with
      | Some m => [(p, m)]
      | None => []
      end.

Lemma g_key : forall x y, In x (collate2 fst fst src old) -> In y (g x) -> fst y = pair_key fst fst x.
Proof using.
  intros [[a|] [b|]] y Hx; apply collate2_sound in Hx; unfold g; cbn -[M_Core.update];
    try (destruct Hx; fail);
    destruct (snd _); cbn -[M_Core.update]; (intros [<-|[]] || intros []); reflexivity.
Qed.
Lemma g_len x : (length (g x) <= 1)%nat.
Proof using. unfold g. cbn -[M_Core.update]. destruct (snd _); cbn; [apply le_n|apply Nat.le_0_l]. Qed.

Lemma with_sorted : sorted_by fst (listing_with delta sha1 same prev st old src o r).
Proof using Hsrc Hold.
  eapply flat_sorted; [apply collate2_sorted; eassumption|exact g_key|exact g_len].
Qed.

Hypothesis Hst : forall f o, snd (update prev Absent o (st None f)) = None.
Lemma with_find p :
  find_md p (recs_of (listing_with delta sha1 same prev st old src o r)) =
  snd (update prev (node_at src p) (o p) (st (find_md p old) (r_path r p))).
Proof using Hsrc Hold Hst.
  rewrite find_md_key, node_at_key, find_md_key. unfold recs_of.
  rewrite (map_find (@fst idx (meta attr)) (@fst idx (option (meta attr)))) by reflexivity.
  unfold M_Global.listing_with. fold g.
  rewrite (flat_find (pair_key fst fst)) by
    ((apply collate2_sorted; assumption) || exact g_key || exact g_len).
  rewrite collate2_find by assumption.
  destruct (find_key fst p src) as [a|] eqn:Ea, (find_key fst p old) as [b|] eqn:Eb.
  - apply find_key_some in Ea as [_ Ea]. unfold g. cbn -[M_Core.update]. rewrite Ea.
    destruct (snd (M_Core.update _ _ _ _ _ _ _)); reflexivity.
  - apply find_key_some in Ea as [_ Ea]. unfold g. cbn -[M_Core.update]. rewrite Ea.
    destruct (snd (M_Core.update _ _ _ _ _ _ _)); reflexivity.
  - apply find_key_some in Eb as [_ Eb]. unfold g. cbn -[M_Core.update]. rewrite Eb.
    destruct (snd (M_Core.update _ _ _ _ _ _ _)); reflexivity.
  - cbn [option_map]. symmetry. apply Hst.
Qed.
End NewListing.
Lemma new_sorted prev old src o r : sorted_by fst src -> sorted_by fst old -> sorted_by fst (new_listing prev old src o r).
Proof using. apply with_sorted. Qed.
Lemma new_find prev old src o r p : sorted_by fst src -> sorted_by fst old ->
  find_md p (recs_of (new_listing prev old src o r)) =
  snd (update prev (node_at src p) (o p) (pst prev (find_md p old) (r_path r p))).
Proof using.
  intros H1 H2. apply with_find; auto. intros f o'. unfold M_Core.update, cur_meta, pst. destruct prev; cbn; now destruct o'.
Qed.

(** ** The invariant *)
(** contents occurring at a path *)
Variable P : idx -> bytes -> Prop.
Hypothesis occ_nil : forall p, P p [].
Hypothesis patch_delta : forall p basis new, P p basis -> P p new -> patch basis (delta basis new) = Some new.
Hypothesis sha1_inj : forall p a b x y h, P p x -> P p y -> sha1 a x = Some h -> sha1 b y = Some h -> x = y.
Hypothesis loose_self : forall a c, sha1 a c = None -> loose a a = true.

Notation hrec := (list (Z * (idx -> node))).
Definition recs_p (recs : hrec) (p : idx) : list (Z * node) := map (fun x => (fst x, snd x p)) recs.
Definition metas_p (recs : hrec) (p : idx) := map (fun x => (fst x, meta_of (snd x p))) recs.
Definition ps_of (recs : hrec) (p : idx) (m : node) (l : list (Z * inc attr)) : @pstate attr :=
  mk_ps m l (metas_p recs p).
Definition ghead (recs : hrec) (p : idx) : node := match recs with (_, f) :: _ => f p | [] => Absent end.

(** the increments have the times of sessions, and those older than a session restore
    the older ones from it *)
Definition Hist (recs : hrec) (p : idx) (l : list (Z * inc attr)) : Prop :=
  Forall (fun x => In (fst x) (map fst recs)) l /\
  forall r1 t0 f0 r0, recs = r1 ++ (t0, f0) :: r0 ->
    Inv patch sha1 (P p) (recs_p ((t0, f0) :: r0) p)
      (ps_of ((t0, f0) :: r0) p (f0 p) (filter (fun x => fst x <? t0) l)).
(** the attributes of a regular mirror file are as recorded or taken for them *)
Definition MOk (recs : hrec) (p : idx) (m : node) : Prop :=
  match ghead recs p with
  | Reg c a => exists b, m = Reg c b /\ (b = a \/ loose a b = true)
  | _ => True
  end.

Lemma mok_known recs p m : MOk recs p m -> known sha1 loose (ghead recs p) m.
Proof using loose_self.
  unfold MOk, known. destruct (ghead recs p) as [|c a| |]; auto. intros (b & -> & [-> |H]) E; eauto.
Qed.

Definition PInv (recs : hrec) (p : idx) (f : @pfiles attr) : Prop :=
  exists l, Permutation (snd f) l /\ Inv patch sha1 (P p) (recs_p recs p) (ps_of recs p (fst f) l) /\
    strict (recs_p recs p) (ps_of recs p (fst f) l) /\ Hist recs p l /\ MOk recs p (fst f).

Definition matches (x : Z * list (idx * meta attr)) (y : Z * (idx -> node)) : Prop :=
  fst x = fst y /\ forall p, find_md p (recs_of (snd x)) = meta_of (snd y p).

Definition DInv (recs : hrec) (d : @ddir (meta attr)) : Prop :=
  exists h, reach deq h d /\ Forall2 matches h (rev recs).

Definition GInv (recs : hrec) (r : repo) : Prop :=
  match recs with
  | [] => r_data r = empty_dd
  | _ => DInv recs (r_data r)
  end /\ forall p, PInv recs p (r_path r p).

Lemma recs_p_head recs p : head_of (recs_p recs p) = ghead recs p.
Proof using. destruct recs as [|[t f] recs]; reflexivity. Qed.
Lemma cur_meta_ps recs p m l : cur_meta (ps_of recs p m l) = meta_of (ghead recs p).
Proof using. destruct recs as [|[t f] recs]; reflexivity. Qed.

(** only what is recorded for each path matters *)
Lemma ginv_ext1 t f f' r : (forall p, f p = f' p) -> GInv [(t, f)] r -> GInv [(t, f')] r.
Proof using.
  intros H [(h & HR & HF) HP]. split.
  - exists h. split; [exact HR|]. cbn [rev app] in *. inversion HF as [|? y ? ? [Ht Hx] HF']; subst. inversion HF'; subst.
    constructor; [|constructor]. split; [exact Ht|]. intros p. cbn [snd]. rewrite <- H. apply Hx.
  - intros p. destruct (HP p) as (l & HPm & HI & Hst & [HT HH] & Hmo). exists l. split; [exact HPm|].
    pose proof (HH [] t f [] eq_refl) as HH0.
    unfold ps_of, recs_p, metas_p, MOk in *. cbn [map fst snd ghead] in *. rewrite (H p) in *.
    split; [exact HI|]. split; [exact Hst|]. split; [|exact Hmo]. split; [exact HT|].
    intros r1 t0 f0 r0 E. destruct r1 as [|x [|y r1]]; try discriminate. injection E as <- <- <-. exact HH0.
Qed.

Lemma ginv_empty : GInv [] gempty.
Proof using.
  split; [reflexivity|]. intros p. exists []. split; [apply Permutation_refl|]. split; [apply inv_empty|]. split; [exact I|].
  split; [|exact I]. split; [constructor|]. intros [|x r1] t0 f0 r0 E; discriminate.
Qed.

(** *** the older sessions *)
Lemma update_incs prev s o ps : snd (fst (update prev s o ps)) = incs ps \/
  exists i, snd (fst (update prev s o ps)) = add_inc prev i (incs ps).
Proof using.
  unfold M_Core.update.
  repeat match goal with |- context [match ?x with _ => _ end] =>
    match type of x with
    | bool => destruct x
    | outcome _ => destruct x
    | M_Core.node _ => destruct x
    | option (inc _) => destruct x
    end end; cbn; eauto.
Qed.

Lemma filter_all {A} (f : A -> bool) l : Forall (fun x => f x = true) l -> filter f l = l.
Proof using. induction 1 as [|x l Hx Hl IH]; cbn; [reflexivity|]. now rewrite Hx, IH. Qed.

Lemma recs_p_times (recs : hrec) p r1 t0 f0 r0 t f recs0 : 
  StronglySorted (fun x y => fst y < fst x) (recs_p recs p) -> recs = (t, f) :: recs0 -> recs = r1 ++ (t0, f0) :: r0 -> t0 <= t.
Proof using.
  intros Hs -> E. destruct r1 as [|x r1]; cbn in E.
  - injection E as -> _ _. apply Z.le_refl.
  - injection E as _ E. inversion Hs as [|? ? _ F]; subst. rewrite Forall_forall in F.
    assert (H : In (t0, f0 p) (recs_p (r1 ++ (t0, f0) :: r0) p)).
    { unfold recs_p. apply in_map_iff. exists (t0, f0). split; [reflexivity|]. apply in_app_iff. right. now left. }
    specialize (F _ H). cbn in F. now apply Z.lt_le_incl.
Qed.

Lemma hist_session recs p l l' t F m' prev :
  Hist recs p l -> StronglySorted (fun x y => fst y < fst x) (recs_p recs p) ->
  (match recs with (t1, _) :: _ => prev = Some t1 /\ t1 < t | [] => prev = None end) ->
  (l' = l \/ exists i, l' = add_inc prev i l) -> (recs = [] -> l = []) ->
  Inv patch sha1 (P p) (recs_p ((t, F) :: recs) p) (ps_of ((t, F) :: recs) p m' l') ->
  strict (recs_p ((t, F) :: recs) p) (ps_of ((t, F) :: recs) p m' l') ->
  Hist ((t, F) :: recs) p l'.
Proof using loose occ_nil.
  intros [HT HH] Hs Hprev Hl' Hnil HI Hst. split.
  - assert (Ho : Forall (fun x => In (fst x) (map fst ((t, F) :: recs))) l).
    { eapply Forall_impl; [|exact HT]. intros x Hx. now right. }
    destruct Hl' as [->|[i ->]]; [exact Ho|]. unfold add_inc. destruct prev; [|exact Ho]. apply Forall_app. split; [exact Ho|].
    constructor; [|constructor]. destruct recs as [|[t1 f1] recs]; [discriminate|]. destruct Hprev as [[= ->] _]. right. now left.
  - intros r1 t0 f0 r0 E. destruct r1 as [|x r1]; cbn in E.
    + injection E as <- <- <-.
      assert (E' : filter (fun x => fst x <? t) l' = l').
      { apply filter_all. pose proof (inv_old _ _ _ _ _ HI) as Hold. cbn in Hold.
        eapply Forall_impl; [|exact Hold]. intros x Hx. now apply Z.ltb_lt. }
      rewrite E'. change (ps_of ((t, F) :: recs) p (F p) l') with
        (mk_ps (F p) (incs (ps_of ((t, F) :: recs) p m' l')) (metas (ps_of ((t, F) :: recs) p m' l'))).
      apply (inv_mirror patch sha1 loose); auto; [discriminate|]. cbn. destruct (F p); cbn; eauto.
    + injection E as _ E. destruct recs as [|[t1 f1] recs0] eqn:Er; [destruct r1; discriminate|].
      destruct Hprev as [-> Ht]. rewrite <- Er in *.
      assert (E' : filter (fun x => fst x <? t0) l' = filter (fun x => fst x <? t0) l).
      { destruct Hl' as [->|[i ->]]; [reflexivity|]. cbn. rewrite filter_app. cbn.
        assert (H : t0 <= t1) by (eapply (recs_p_times recs p); eauto).
        destruct (Z.ltb_spec t1 t0) as [Hx|Hx]; [|apply app_nil_r]. exfalso. exact (Z.lt_irrefl _ (Z.lt_le_trans _ _ _ Hx H)). }
      rewrite E'. exact (HH r1 t0 f0 r0 E).
Qed.

(** the mirror file after an update *)
Lemma update_mok recs p s o prev ps : MOk recs p (mirror ps) -> okn (P p) s -> okn (P p) (ghead recs p) ->
  cur_meta ps = meta_of (ghead recs p) -> good o -> (forall a, o <> OSpecialFail a) ->
  forall t F, F p = recorded (ghead recs p) s o -> MOk ((t, F) :: recs) p (fst (fst (update prev s o ps))).
Proof using sha1_inj.
  intros HM Hk Hkv Hcm Hg Ho t F HF. unfold MOk at 1. cbn [ghead]. rewrite HF. unfold MOk in HM.
  unfold M_Core.update, L_Core.recorded. rewrite Hcm.
  assert (Hs : forall n : node, match n with Reg c a => exists b, n = Reg c b /\ (b = a \/ loose a b = true) | _ => True end).
  { intros []; eauto. }
  assert (Hh : hash_unchanged sha1 s (meta_of (ghead recs p)) = true ->
    match s with Reg c a => exists b, copy_attribs s (mirror ps) = Reg c b /\ (b = a \/ loose a b = true) | _ => True end).
  { destruct s as [|c a| |]; auto. destruct (ghead recs p) as [|c' a'| |]; try discriminate. cbn. intros E.
    destruct HM as (b & Em & _). rewrite Em. cbn. cbn in Hk, Hkv.
    destruct (sha1 a' c') as [h'|] eqn:E1; [|discriminate]. destruct (sha1 a c) as [h|] eqn:E2; [|discriminate].
    apply beq_true in E. subst h'. assert (c' = c) by (eapply (sha1_inj p); eauto). subst c'. eauto. }
  destruct (meta_same same s (meta_of (ghead recs p))) eqn:Em.
  { destruct o; try exact HM. destruct s; try exact HM. cbn. exact I. }
  destruct o; try (destruct Hg; fail); try (exfalso; eapply Ho; reflexivity).
  - destruct (hash_unchanged _ _ _); [exact (Hh eq_refl)|apply Hs].
  - destruct (hash_unchanged _ _ _); [exact (Hh eq_refl)|apply Hs].
  - exact HM.
  - destruct s; cbn; eauto.
Qed.


(** *** the previous session *)
Lemma dinv_last recs t1 f d : DInv ((t1, f) :: recs) d ->
  exists h h0 l0, reach deq h d /\ h = h0 ++ [(t1, l0)] /\ markers d = [t1] /\ 0 < t1 /\
    last_session h t1 /\ sorted_by fst l0 /\ meta_at_time t1 [] (mfiles d) = RdOk (recs_of l0) /\
    forall p, find_md p (recs_of l0) = meta_of (f p).
Proof using deq_ok.
  intros (h & HR & HF). destruct (reach_inv deq deq_ok h d HR) as [fs HI].
  destruct (inv_last deq h d fs HI) as (fs0 & h0 & t2 & l0 & E & Hh & Hm & Hl).
  cbn [rev] in HF. rewrite Hh in HF. apply Forall2_app_inv_l in HF as (h1 & h2 & HF1 & HF2 & Eq).
  inversion HF2 as [|? y ? l2 [Ht Hx] HF3]; subst. inversion HF3; subst.
  apply app_inj_tail in Eq as [_ <-]. cbn in Ht, Hx. subst t2.
  assert (HL : last_session (h0 ++ [(t1, l0)]) t1).
  { destruct (inv_last_session deq _ _ _ HI) as (t3 & Hm3 & HL). rewrite Hm in Hm3. injection Hm3 as <-. exact HL. }
  exists (h0 ++ [(t1, l0)]), h0, l0. repeat split; auto.
  - exact (i_pos _ _ _ _ HI (mk_mf t1 KSnap (recs_of l0)) (proj2 (in_snoc _ _ _) (or_intror eq_refl))).
  - apply HL.
  - apply HL.
  - rewrite (C12_every_session_recovered _ deq deq_ok _ _ HR t1 l0 []) by (apply in_app_iff; right; now left).
    f_equal. unfold recs_of. f_equal. clear. induction l0 as [|x l IH]; cbn; [reflexivity|]. now f_equal.
Qed.

(** *** one path in a session *)
Lemma path_session recs p f t s o prev md :
  PInv recs p f -> good o -> (forall a, o <> OSpecialFail a) -> okn (P p) s ->
  (match recs with (t1, _) :: _ => prev = Some t1 /\ t1 < t | [] => prev = None end) ->
  md = meta_of (ghead recs p) ->
  let v := recorded (ghead recs p) s o in
  forall F, F p = v ->
  PInv ((t, F) :: recs) p (files_of (session t s o (pst prev md f))) /\
  snd (update prev s o (pst prev md f)) = meta_of v.
Proof using occ_nil patch_delta sha1_inj.
  intros (l & HP & HI & Hst & Hhi & Hmo) Hg Ho Hk Hprev Hmd v F HF.
  set (ps := ps_of recs p (fst f) l) in *.
  assert (Hlt : last_time ps = prev).
  { unfold ps, ps_of, last_time, metas_p. destruct recs as [|[t1 f1] recs']; cbn; [congruence|]. now destruct Hprev. }
  assert (Hlt' : last_time (pst prev md f) = prev) by (unfold pst, last_time; cbn; now destruct prev).
  assert (Hcm : cur_meta (pst prev md f) = cur_meta ps).
  { unfold ps. rewrite cur_meta_ps, <- Hmd. unfold pst, cur_meta. cbn. destruct prev; [reflexivity|].
    subst md. destruct recs as [|[t1 f1] recs']; [reflexivity|]. destruct Hprev; discriminate. }
  assert (Hpq : peq (pst prev md f) ps) by (split; [reflexivity|exact HP]).
  destruct (update_peq prev s o _ _ Hpq Hcm) as (E1 & E2 & E3).
  pose proof (recs_p_head recs p) as Hh.
  pose proof (inv_session delta patch sha1 same (P p) (occ_nil p) (patch_delta p) (sha1_inj p) (recs_p recs p) ps t s o HI Hg Hk) as HI'.
  pose proof (strict_session delta patch sha1 same (P p) (recs_p recs p) ps t s o HI Hst Hg Ho) as Hst'.
  fold (head_of (recs_p recs p)) in HI'. rewrite Hh in HI', Hst'. fold v in HI', Hst'.
  assert (Ht : match recs_p recs p with (t0, _) :: _ => t0 < t | [] => True end).
  { destruct recs as [|[t1 f1] recs']; cbn; [exact I|]. now destruct Hprev. }
  specialize (HI' Ht). 
  assert (Es : session t s o ps = mk_ps (fst (fst (update prev s o ps))) (snd (fst (update prev s o ps)))
                 ((t, snd (update prev s o ps)) :: metas ps)).
  { unfold M_Core.session. rewrite Hlt. destruct (update prev s o ps) as [[? ?] ?]. reflexivity. }
  assert (Es' : files_of (session t s o (pst prev md f)) = (fst (fst (update prev s o (pst prev md f))), snd (fst (update prev s o (pst prev md f))))).
  { unfold M_Core.session. rewrite Hlt'. destruct (update prev s o (pst prev md f)) as [[? ?] ?]. reflexivity. }
  assert (Em : snd (update prev s o ps) = meta_of v).
  { pose proof (inv_metas _ _ _ _ _ HI') as IM. rewrite Es in IM. cbn in IM. now injection IM. }
  split; [|now rewrite E3].
  rewrite Es'. exists (snd (fst (update prev s o ps))). cbn [fst snd]. split; [exact E2|].
  rewrite E1.
  replace (recs_p ((t, F) :: recs) p) with ((t, v) :: recs_p recs p) by (cbn; now rewrite HF).
  replace (ps_of ((t, F) :: recs) p (fst (fst (update prev s o ps))) (snd (fst (update prev s o ps))))
    with (session t s o ps).
  - split; [assumption|]. split; [assumption|]. 
    assert (Eps : ps_of ((t, F) :: recs) p (fst (fst (update prev s o ps))) (snd (fst (update prev s o ps))) = session t s o ps).
    { rewrite Es, Em. unfold ps_of, ps. cbn. now rewrite HF. }
    split.
    + eapply (hist_session recs p l _ t F _ prev Hhi (L_Core.inv_times _ _ _ _ _ HI) Hprev (update_incs prev s o ps)).
      * intros ->. exact (inv_old _ _ _ _ _ HI).
      * rewrite Eps. replace (recs_p ((t, F) :: recs) p) with ((t, v) :: recs_p recs p) by (cbn; now rewrite HF). exact HI'.
      * rewrite Eps. replace (recs_p ((t, F) :: recs) p) with ((t, v) :: recs_p recs p) by (cbn; now rewrite HF). exact Hst'.
    + apply (update_mok recs p s o prev ps Hmo Hk); auto.
      * destruct recs as [|[t1 f1] recs']; [exact I|]. pose proof (inv_ok _ _ _ _ _ HI) as Hq. exact (Forall_inv Hq).
      * apply cur_meta_ps.
  - rewrite Es, Em. unfold ps_of, ps. cbn. now rewrite HF.
Qed.

(** *** a session *)
Lemma forall2_snoc {A B} (R : A -> B -> Prop) l l' x y : Forall2 R l l' -> R x y -> Forall2 R (l ++ [x]) (l' ++ [y]).
Proof using. intros. apply Forall2_app; auto. Qed.

Definition newf (recs : hrec) (src : @tree attr) (o : idx -> outcome attr) (p : idx) : node :=
  recorded (ghead recs p) (node_at src p) (o p).

Lemma session_ginv recs r t src o zd r' :
  GInv recs r -> listing fst src -> (forall p, good (o p) /\ forall a, o p <> OSpecialFail a) ->
  (forall p, okn (P p) (node_at src p)) ->
  gsession t src o zd r = Some r' -> GInv ((t, newf recs src o) :: recs) r'.
Proof using deq_ok occ_nil patch_delta sha1_inj.
  intros [HD HP] Hsrc Ho Hk E. apply listing_sorted in Hsrc. unfold M_Global.gsession in E.
  destruct (backup_start t false false (r_data r)) as [prev| |] eqn:Est; try discriminate.
  destruct recs as [|[t1 f1] recs].
  - rewrite HD in *.
    assert (Hp : prev = None /\ 0 < t).
    { unfold backup_start in Est. cbn in Est. destruct (Z.leb_spec t 0); [discriminate|]. now injection Est. }
    destruct Hp as [-> Hpos]. cbn [old_listing] in E.
    destruct (session_dops _ _ _ _ _ _) as [ops|] eqn:Eops; [|discriminate]. injection E as <-.
    assert (HPS : forall p, PInv [(t, newf [] src o)] p
        (files_of (session t (node_at src p) (o p) (pst None (find_md p []) (r_path r p)))) /\
        snd (update None (node_at src p) (o p) (pst None (find_md p []) (r_path r p))) = meta_of (newf [] src o p)).
    { intros p. destruct (Ho p). apply (path_session [] p (r_path r p) t (node_at src p) (o p) None None); auto. }
    split; [|intros p; apply HPS]. cbn [r_data].
    exists [(t, new_listing None [] src o r)]. split.
    + eapply R_first; [exact Hpos| |exact Eops]. apply listing_sorted, new_sorted; [assumption|constructor].
    + repeat constructor. intros p. cbn [fst snd]. rewrite new_find by (assumption || constructor). apply HPS.
  - destruct (dinv_last _ _ _ _ HD) as (h & h0 & l0 & HR & Hh & Hm & Hpos & HL & Hl0 & Hmt & Hmd).
    destruct (reach_inv deq deq_ok h _ HR) as [fs HI].
    destruct (start_last deq h _ fs t prev HI Est) as (t2 & Hm2 & -> & Hlt & _).
    rewrite Hm in Hm2. injection Hm2 as <-.
    cbn [old_listing] in E. rewrite Hmt in E.
    destruct (session_dops _ _ _ _ _ _) as [ops|] eqn:Eops; [|discriminate]. injection E as <-.
    assert (HPS : forall p, PInv ((t, newf ((t1, f1) :: recs) src o) :: (t1, f1) :: recs) p
        (files_of (session t (node_at src p) (o p) (pst (Some t1) (find_md p (recs_of l0)) (r_path r p)))) /\
        snd (update (Some t1) (node_at src p) (o p) (pst (Some t1) (find_md p (recs_of l0)) (r_path r p))) = meta_of (newf ((t1, f1) :: recs) src o p)).
    { intros p. destruct (Ho p).
      apply (path_session ((t1, f1) :: recs) p (r_path r p) t (node_at src p) (o p) (Some t1)); auto. }
    split; [|intros p; apply HPS]. cbn [r_data].
    destruct HD as (h' & HR' & HF).
    exists (h' ++ [(t, new_listing (Some t1) (recs_of l0) src o r)]). split.
    + eapply R_session; eauto. apply listing_sorted, new_sorted; [assumption|]. now apply recs_sorted.
    + cbn [rev]. apply forall2_snoc; [exact HF|]. split; [reflexivity|]. intros p. cbn [fst snd].
      rewrite new_find by (assumption || now apply recs_sorted). apply HPS.
Qed.

(** *** a crashed session and its regress *)
Notation RecI := (RecI patch sha1 loose).
Definition PMid (recs : hrec) (t1 : Z) (p : idx) (f : @pfiles attr) : Prop :=
  exists m0 l s, fst f = fst s /\ Permutation (snd f) (l ++ tail_of t1 (snd s)) /\
    RecI (P p) (ghead recs p) s /\
    Inv patch sha1 (P p) (recs_p recs p) (ps_of recs p m0 l) /\ strict (recs_p recs p) (ps_of recs p m0 l) /\
    Hist recs p l.

Section Mid.
Variables (recs0 : hrec) (t1 : Z) (f1 : idx -> node) (t : Z)
  (h : list (Z * list (idx * meta attr))) (d0 : @ddir (meta attr)) (fs0 : list (@mfile (meta attr)))
  (h0 : list (Z * list (idx * meta attr))) (l0 : list (idx * meta attr)).
Let fs := fs0 ++ [mk_mf t1 KSnap (recs_of l0)].
Let recs := (t1, f1) :: recs0.
Hypothesis HR : reach deq h d0.
Hypothesis HI : inv deq h d0 fs.
Hypothesis Hh : h = h0 ++ [(t1, l0)].
Hypothesis Hm : markers d0 = [t1].
Hypothesis Ht : t1 < t.
Hypothesis Hmd : forall p, find_md p (recs_of l0) = meta_of (f1 p).
Hypothesis HF : Forall2 matches h (rev recs).

Definition GMid (r : repo) : Prop :=
  mid deq fs h t1 t (r_data r) /\ forall p, PMid recs t1 p (r_path r p).

(** one path in one attempt *)
Lemma path_attempt p z md' f : PMid recs t1 p f ->
  exists l, regress_prog t1 t (meta_of (f1 p)) z (pst (Some t1) md' f) = Some l /\
    (forall k, PMid recs t1 p (files_of (crash t1 k l (pst None None f)))) /\
    PInv recs p (files_of (run_pops t1 l (pst None None f))).
Proof using same occ_nil patch_delta sha1_inj loose_self Ht.
  clear HF Hmd. intros (m0 & l & s & Ef & HP & HRc & HIv & Hst & Hhi).
  pose proof (inv_sorted _ _ _ _ _ HIv) as Hs. pose proof (inv_old _ _ _ _ _ HIv) as Ho. cbn in Hs, Ho.
  set (ps0 := ps_of recs p m0 l) in *.
  destruct (regress_ok delta patch sha1 same loose (P p) (patch_delta p) (sha1_inj p) loose_self (f1 p) ps0 t1 t z s Hs Ho Ht HRc) as (ops & E & Hk & m' & Ea & Hr).
  exists ops.
  assert (Hpeq : forall M, peq (conc ps0 t1 s) (mk_ps (fst f) (snd f) M)).
  { intros M. split; cbn; [now symmetry|now symmetry]. }
  assert (Hss : StronglySorted tlt (incs (conc ps0 t1 s))).
  { cbn. destruct (snd s) as [i|]; cbn [tail_of]; [|now rewrite app_nil_r]. now apply sorted_snoc. }
  split; [|split].
  - rewrite <- E. apply regress_prog_peq; [exact Hss|]. apply Hpeq.
  - intros k. unfold crash. pose proof (run_pops_peq t1 (firstn k ops) _ _ (Hpeq [])) as [Q1 Q2].
    rewrite run_pops_conc in Q1, Q2 by exact Ho. cbn [conc mirror incs] in Q1, Q2.
    exists m0, l, (aruns (firstn k ops) s). split; [now symmetry|]. split; [now symmetry|].
    split; [now apply keeps_firstn|]. split; [assumption|]. split; assumption.
  - pose proof (run_pops_peq t1 ops _ _ (Hpeq [])) as [Q1 Q2].
    rewrite run_pops_conc in Q1, Q2 by exact Ho. cbn [conc mirror incs] in Q1, Q2. rewrite Ea in Q1, Q2.
    cbn [fst snd tail_of] in Q1, Q2. rewrite app_nil_r in Q2.
    exists l. split; [now symmetry|].
    assert (E1 : fst (files_of (run_pops t1 ops (pst None None f))) = m') by now symmetry.
    rewrite E1. change (ps_of recs p m' l) with (mk_ps m' (incs ps0) (metas ps0)). split; [|split; [|split; [exact Hhi|]]].
    + apply (inv_mirror patch sha1 loose); auto. discriminate.
    + cbn. clear - Hr. destruct (f1 p); try exact I. cbn in Hr. destruct Hr as (b & -> & _). reflexivity.
    + unfold MOk. cbn [ghead recs]. clear - Hr. destruct (f1 p); try exact I. exact Hr.
Qed.

Lemma plan_exists used z r : GMid r -> exists l prog, regress_plan patch sha1 loose used z r t1 l prog.
Proof using same occ_nil patch_delta sha1_inj loose_self HI Hh Ht Hmd deq_ok.
  intros [HM HPM].
  destruct (regress_form deq deq_ok h d0 fs0 h0 t1 l0 t HI Hh Ht used (r_data r) HM) as (pre & diffs & E & _).
  eexists _, _. unfold regress_plan. exists t, (recs_of l0). split; [apply (two_marks t1 t Ht); apply HM|].
  split; [exact E|]. split.
  - destruct (attempt_done deq deq_ok h d0 fs0 h0 t1 l0 t HI Hh Ht used (r_data r) _ HM E) as (_ & HPm & _).
    set (ops := pre ++ rrest t1 t used diffs) in *.
    assert (Es : mfiles (run_dops (firstn (length ops - 2) ops) (r_data r)) = mfiles (run_dops ops (r_data r))).
    { assert (Ex : exists ops', ops = ops' ++ [DIncUndo used; DUnmark t]).
      { unfold ops, rrest. eexists. rewrite !app_assoc. reflexivity. }
      destruct Ex as [ops' ->]. rewrite app_length. cbn [length].
      replace (length ops' + 2 - 2)%nat with (length ops') by apply eq_sym, Nat.add_sub.
      rewrite firstn_app, Nat.sub_diag, firstn_all. cbn [firstn]. rewrite app_nil_r, run_dops_app. reflexivity. }
    rewrite Es. rewrite (read_ok deq deq_ok fs h _ t1 l0 [] (i_chain _ _ _ _ HI) (i_asc _ _ _ _ HI) HPm).
    + now rewrite restrict_nil.
    + rewrite Hh. apply in_app_iff. right. now left.
  - split; [reflexivity|]. intros p. cbn beta. rewrite Hmd.
    destruct (path_attempt p (z p) (meta_of (f1 p)) (r_path r p) (HPM p)) as (l & El & _). rewrite El. discriminate.
Qed.

Lemma plan_ok used z r good l prog : GMid r -> regress_plan patch sha1 loose used z r good l prog ->
  (forall kd kp, GMid (regress_part good l prog kd kp r)) /\ GInv recs (regress_full good l prog r) /\
  r_data (regress_full good l prog r) = run_dops l (r_data r) /\ incs_used (run_dops l (r_data r)) = used /\ good = t1.
Proof using same occ_nil patch_delta sha1_inj loose_self HR HI Hh Hm Ht Hmd HF deq_ok.
  intros [HM HPM] (bad & rc & Hw & Hl & Hmt & -> & _).
  rewrite (two_marks t1 t Ht _ (proj1 HM)) in Hw. injection Hw as <- <-.
  destruct (attempt_done deq deq_ok h d0 fs0 h0 t1 l0 t HI Hh Ht used (r_data r) _ HM Hl) as (Hmk & HPm & Hus).
  assert (Hrc : rc = recs_of l0).
  { destruct (regress_form deq deq_ok h d0 fs0 h0 t1 l0 t HI Hh Ht used (r_data r) HM) as (pre & diffs & E & _).
    rewrite Hl in E. injection E as ->. set (ops := pre ++ rrest t1 t used diffs) in *.
    assert (Es : mfiles (run_dops (firstn (length ops - 2) ops) (r_data r)) = mfiles (run_dops ops (r_data r))).
    { assert (Ex : exists ops', ops = ops' ++ [DIncUndo used; DUnmark t]).
      { unfold ops, rrest. eexists. rewrite !app_assoc. reflexivity. }
      destruct Ex as [ops' ->]. rewrite app_length. cbn [length].
      replace (length ops' + 2 - 2)%nat with (length ops') by apply eq_sym, Nat.add_sub.
      rewrite firstn_app, Nat.sub_diag, firstn_all. cbn [firstn]. rewrite app_nil_r, run_dops_app. reflexivity. }
    rewrite Es in Hmt. rewrite (read_ok deq deq_ok fs h _ t1 l0 [] (i_chain _ _ _ _ HI) (i_asc _ _ _ _ HI) HPm) in Hmt.
    + rewrite restrict_nil in Hmt. now injection Hmt.
    + rewrite Hh. apply in_app_iff. right. now left. }
  subst rc.
  split; [|split; [|auto]].
  - intros kd kp. split.
    + cbn [regress_part r_data]. apply (attempt_crash deq deq_ok h d0 fs0 h0 t1 l0 t HI Hh Ht used); assumption.
    + intros p. cbn [regress_part r_path]. rewrite Hmd.
      destruct (path_attempt p (z p) (meta_of (f1 p)) (r_path r p) (HPM p)) as (ops & El & Hk & _). rewrite El. apply Hk.
  - split.
    + cbn [regress_full r_data]. exists h. split; [|exact HF].
      eapply R_listing; [exact HR| |now rewrite Hm, Hmk].
      etransitivity; [apply (i_perm _ _ _ _ HI)|]. now symmetry.
    + intros p. cbn [regress_full r_path]. rewrite Hmd.
      destruct (path_attempt p (z p) (meta_of (f1 p)) (r_path r p) (HPM p)) as (ops & El & _ & Hd). rewrite El. exact Hd.
Qed.

Lemma regresses_ok used zl att : forall r, GMid r ->
  (exists r', regresses patch sha1 loose used att zl r r') /\
  (forall r', regresses patch sha1 loose used att zl r r' -> GInv recs r' /\ incs_used (r_data r') = used).
Proof using same occ_nil patch_delta sha1_inj loose_self HR HI Hh Hm Ht Hmd HF deq_ok.
  induction att as [|[[z kd] kp] att IH]; intros r HG; cbn [regresses].
  - split.
    + destruct (plan_exists used zl r HG) as (l & prog & Hp). eauto 6.
    + intros r' (good & l & prog & Hp & ->). destruct (plan_ok used zl r good l prog HG Hp) as (_ & A & B & C & _).
      split; [exact A|]. now rewrite B.
  - split.
    + destruct (plan_exists used z r HG) as (l & prog & Hp).
      destruct (plan_ok used z r _ l prog HG Hp) as (A & _). destruct (IH _ (A kd kp)) as [[r' Hr'] _]. eauto 8.
    + intros r' (good & l & prog & Hp & Hr').
      destruct (plan_ok used z r good l prog HG Hp) as (A & _). destruct (IH _ (A kd kp)) as [_ B]. now apply B.
Qed.
End Mid.

(** the interrupted session *)
Lemma crash_mid recs0 t1 f1 r t src o z zd kd kp rc :
  GInv ((t1, f1) :: recs0) r -> listing fst src ->
  (forall p, okn (P p) (node_at src p)) ->
  (forall p, shows loose (P p) (f1 p) (node_at src p)) ->
  gcrash t src o z zd kd kp r = Some rc ->
  exists h fs0 h0 l0,
    reach deq h (r_data r) /\ inv deq h (r_data r) (fs0 ++ [mk_mf t1 KSnap (recs_of l0)]) /\
    h = h0 ++ [(t1, l0)] /\ markers (r_data r) = [t1] /\ t1 < t /\
    (forall p, find_md p (recs_of l0) = meta_of (f1 p)) /\
    Forall2 matches h (rev ((t1, f1) :: recs0)) /\
    GMid recs0 t1 f1 t h fs0 l0 rc.
Proof using deq_ok occ_nil patch_delta sha1_inj loose_self.
  intros [HD HP] Hsrc Hk Hsh E. apply listing_sorted in Hsrc. unfold M_Global.gcrash in E.
  destruct (backup_start t false false (r_data r)) as [[t2|]| |] eqn:Est; try discriminate.
  destruct HD as (h & HR & HF).
  destruct (dinv_last recs0 t1 f1 (r_data r) (ex_intro _ h (conj HR HF))) as (h' & h0' & l0' & _ & _ & Hm & _).
  clear h' h0' l0'.
  destruct (reach_inv deq deq_ok h _ HR) as [fs HI].
  destruct (start_last deq h _ fs t (Some t2) HI Est) as (t3 & Hm2 & E2 & Hlt & _).
  injection E2 as <-. rewrite Hm in Hm2. injection Hm2 as <-.
  destruct (inv_last deq h (r_data r) fs HI) as (fs0 & h0 & t4 & l0 & Efs & Hh & Hm4 & Hl0).
  rewrite Hm in Hm4. injection Hm4 as <-.
  assert (Hmd : forall p, find_md p (recs_of l0) = meta_of (f1 p)).
  { cbn [rev] in HF. rewrite Hh in HF. apply Forall2_app_inv_l in HF as (h1 & h2 & HF1 & HF2 & Eq).
    inversion HF2 as [|? y ? l2 [Htt Hx] HF3]; subst. inversion HF3; subst.
    apply app_inj_tail in Eq as [_ <-]. exact Hx. }
  assert (Hmt : meta_at_time t1 [] (mfiles (r_data r)) = RdOk (recs_of l0)).
  { rewrite (read_ok deq deq_ok fs h _ t1 l0 [] (i_chain _ _ _ _ HI) (i_asc _ _ _ _ HI) (i_perm _ _ _ _ HI)).
    - now rewrite restrict_nil.
    - rewrite Hh. apply in_app_iff. right. now left. }
  cbn [old_listing] in E. rewrite Hmt in E.
  destruct (session_dops _ _ _ _ _ _) as [ops|] eqn:Eops; [|discriminate].
  destruct (Nat.ltb 0 kd && Nat.ltb kd (length ops)) eqn:Ekd; [|discriminate]. injection E as <-.
  apply andb_true_iff in Ekd as [K1 K2]. apply Nat.ltb_lt in K1, K2.
  subst fs. exists h, fs0, h0, l0. split; [exact HR|]. split; [exact HI|]. split; [exact Hh|]. split; [exact Hm|].
  split; [exact Hlt|]. split; [exact Hmd|]. split; [exact HF|]. split.
  - cbn [r_data]. refine (session_crash deq h (r_data r) fs0 h0 t1 l0 t _ zd HI Hh Hm Hlt _ ops kd Eops (conj K1 K2)).
    apply new_sorted; [assumption|]. now apply recs_sorted.
  - intros p. cbn [r_path]. destruct (HP p) as (l & HPp & HIp & Hst & Hhi & Hmok).
    pose proof (inv_old _ _ _ _ _ HIp) as Ho. cbn in Ho. pose proof (inv_holds _ _ _ _ _ HIp) as Hho. cbn in Hho.
    set (ps0 := ps_of ((t1, f1) :: recs0) p (fst (r_path r p)) l) in *.
    assert (Hcm : cur_meta ps0 = meta_of (f1 p)) by reflexivity.
    pose proof (inv_ok _ _ _ _ _ HIp) as Hq. cbn in Hq. apply Forall_inv in Hq. cbn in Hq.
    pose proof (session_keeps delta patch sha1 same loose (P p) (occ_nil p) (patch_delta p) (node_at src p) (o p) (z p) (f1 p) ps0
      Hq (Hk p) Hho (mok_known _ _ _ Hmok) Hcm (Hsh p)) as Hkp.
    set (ps := pst (Some t1) (find_md p (recs_of l0)) (r_path r p)).
    assert (Esp : session_prog (node_at src p) (o p) (z p) ps = session_prog (node_at src p) (o p) (z p) ps0).
    { apply session_prog_peq; [reflexivity|]. rewrite Hcm. unfold ps, pst, cur_meta. cbn. apply Hmd. }
    unfold crash. rewrite Esp.
    assert (Hpq : peq ps0 ps) by (split; [reflexivity|now symmetry]).
    pose proof (run_pops_peq t1 (firstn (kp p) (session_prog (node_at src p) (o p) (z p) ps0)) _ _ Hpq) as [Q1 Q2].
    rewrite <- (conc_self ps0 t1) in Q1, Q2 at 2. rewrite run_pops_conc in Q1, Q2 by exact Ho. cbn [conc mirror incs] in Q1, Q2.
    exists (fst (r_path r p)), l, (aruns (firstn (kp p) (session_prog (node_at src p) (o p) (z p) ps0)) (mirror ps0, None)).
    split; [now symmetry|]. split; [now symmetry|].
    split; [now apply keeps_firstn|]. split; [assumption|]. split; assumption.
Qed.

(** *** removal of old increments *)
Definition keep_recs (rt : Z) (recs : hrec) : hrec := filter (fun x => rt <=? fst x) recs.

Lemma keep_neg (rt : Z) {A} (l : list (Z * A)) :
  filter (fun x => negb (fst x <? rt)) l = filter (fun x => rt <=? fst x) l.
Proof using.
  apply filter_ext. intros x. now rewrite Z.leb_antisym.
Qed.
Lemma keep_map {A B} rt (g : A -> B) (l : list (Z * A)) :
  filter (fun x => rt <=? fst x) (map (fun x => (fst x, g (snd x))) l) =
  map (fun x => (fst x, g (snd x))) (filter (fun x => rt <=? fst x) l).
Proof using.
  induction l as [|x l IH]; cbn; [reflexivity|]. destruct (rt <=? fst x); cbn; now rewrite IH.
Qed.
Lemma recs_p_keep rt recs p : recs_p (keep_recs rt recs) p = filter (fun x => rt <=? fst x) (recs_p recs p).
Proof using. unfold recs_p, keep_recs. symmetry. apply (keep_map rt (fun f : idx -> node => f p)). Qed.
Lemma metas_p_keep rt recs p : metas_p (keep_recs rt recs) p = filter (fun x => rt <=? fst x) (metas_p recs p).
Proof using. unfold metas_p, keep_recs. symmetry. apply (keep_map rt (fun f : idx -> node => meta_of (f p))). Qed.

Lemma forall_filter {A} (Q : A -> Prop) f l : Forall Q l -> Forall Q (filter f l).
Proof using. intros H. apply Forall_forall. intros x Hx. apply filter_In in Hx as [Hx _]. rewrite Forall_forall in H. auto. Qed.

Lemma keep_hd rt (recs : hrec) : (match recs with (t, _) :: _ => rt <= t | [] => True end) ->
  recs = [] \/ exists t g rest, recs = (t, g) :: rest /\ keep_recs rt recs = (t, g) :: keep_recs rt rest.
Proof using.
  intros Hrt. destruct recs as [|[t g] rest]; [now left|right]. exists t, g, rest. split; [reflexivity|]. cbn.
  now rewrite (proj2 (Z.leb_le _ _) Hrt).
Qed.

Lemma inv_keep rt recs p m l : Inv patch sha1 (P p) (recs_p recs p) (ps_of recs p m l) ->
  (match recs with (t, _) :: _ => rt <= t | [] => True end) ->
  Inv patch sha1 (P p) (recs_p (keep_recs rt recs) p) (ps_of (keep_recs rt recs) p m (filter (fun x => rt <=? fst x) l)).
Proof using.
  intros [IM IT IS IO IH IC IP IQ] Hrt. cbn [ps_of metas incs mirror] in *. pose proof (keep_hd rt recs Hrt) as Hhd.
  constructor; cbn [ps_of metas incs mirror].
  - rewrite metas_p_keep, IM, recs_p_keep, (keep_map rt meta_of). reflexivity.
  - rewrite recs_p_keep. now apply L_Core.filter_sorted.
  - now apply L_Core.filter_sorted.
  - destruct Hhd as [->|(t & g & rest & -> & E)]; [cbn in *; now rewrite IO|].
    rewrite E. cbn in *. now apply forall_filter.
  - destruct Hhd as [->|(t & g & rest & -> & E)]; [exact IH|]. rewrite E. exact IH.
  - intros t c a Hin. rewrite recs_p_keep in Hin. apply filter_In in Hin as [Hin Hle]. cbn in Hle. apply Z.leb_le in Hle.
    unfold since. rewrite <- (keep_neg rt l), newer_filter by assumption. exact (IC t c a Hin).
  - exact IP.
  - rewrite recs_p_keep. now apply forall_filter.
Qed.
Lemma strict_keep rt recs p m l : strict (recs_p recs p) (ps_of recs p m l) ->
  (match recs with (t, _) :: _ => rt <= t | [] => True end) ->
  strict (recs_p (keep_recs rt recs) p) (ps_of (keep_recs rt recs) p m (filter (fun x => rt <=? fst x) l)).
Proof using.
  intros Hst Hrt. destruct (keep_hd rt recs Hrt) as [->|(t & g & rest & -> & E)]; [exact I|]. rewrite E. exact Hst.
Qed.
Lemma ghead_keep rt recs p : (match recs with (t, _) :: _ => rt <= t | [] => True end) -> ghead (keep_recs rt recs) p = ghead recs p.
Proof using.
  intros Hrt. destruct (keep_hd rt recs Hrt) as [->|(t & g & rest & -> & E)]; [reflexivity|]. rewrite E. reflexivity.
Qed.
Lemma keep_split {A} (q : A -> bool) x r0 : forall l r1, filter q l = r1 ++ x :: r0 ->
  exists r1' r0', l = r1' ++ x :: r0' /\ r0 = filter q r0' /\ q x = true.
Proof using.
  induction l as [|y l IH]; intros r1 E; cbn in E; [destruct r1; discriminate|].
  destruct (q y) eqn:Eq.
  - destruct r1 as [|z r1]; cbn in E; injection E as -> E.
    + exists [], l. auto.
    + destruct (IH r1 E) as (r1' & r0' & -> & -> & Hx). exists (z :: r1'), r0'. auto.
  - destruct (IH r1 E) as (r1' & r0' & -> & -> & Hx). exists (y :: r1'), r0'. auto.
Qed.
Lemma hist_keep rt recs p l : Hist recs p l -> Hist (keep_recs rt recs) p (filter (fun x => rt <=? fst x) l).
Proof using.
  intros [HT HH]. split.
  - apply Forall_forall. intros x Hx. apply filter_In in Hx as [Hx Hle]. rewrite Forall_forall in HT. specialize (HT x Hx).
    apply in_map_iff in HT as (y & Ey & Hy). apply in_map_iff. exists y. split; [exact Ey|]. apply filter_In. split; [exact Hy|]. now rewrite Ey.
  - intros r1 t0 f0 r0 E. unfold keep_recs in E. apply keep_split in E as (r1' & r0' & -> & -> & Hle). cbn in Hle. apply Z.leb_le in Hle.
    pose proof (inv_keep rt _ p _ _ (HH r1' t0 f0 r0' eq_refl) Hle) as X.
    assert (E1 : keep_recs rt ((t0, f0) :: r0') = (t0, f0) :: filter (fun x => rt <=? fst x) r0').
    { unfold keep_recs. cbn. now rewrite (proj2 (Z.leb_le _ _) Hle). }
    rewrite E1 in X.
    assert (E2 : forall w : list (Z * inc attr), filter (fun x => fst x <? t0) (filter (fun x => rt <=? fst x) w) =
                 filter (fun x => rt <=? fst x) (filter (fun x => fst x <? t0) w)).
    { clear. induction w as [|x w IH]; cbn; [reflexivity|]. destruct (rt <=? fst x) eqn:A, (fst x <? t0) eqn:B; cbn; rewrite ?A, ?B, ?IH; reflexivity. }
    rewrite E2. exact X.
Qed.

Lemma remove_pinv rt recs p f : PInv recs p f ->
  (match recs with (t, _) :: _ => rt <= t | [] => True end) ->
  PInv (keep_recs rt recs) p (files_of (remove_older rt (pst None None f))).
Proof using.
  intros (l & HP & HI & Hst & Hhi & Hmo) Hrt. unfold files_of, remove_older, pst. cbn [mirror incs].
  exists (filter (fun x => rt <=? fst x) l). cbn [fst snd]. rewrite keep_neg.
  split; [now apply filter_permut|]. split; [now apply inv_keep|]. split; [now apply strict_keep|].
  split; [now apply hist_keep|]. unfold MOk. rewrite ghead_keep by assumption. exact Hmo.
Qed.
Lemma remove_pmid rt recs t1 p f : PMid recs t1 p f -> rt <= t1 ->
  (match recs with (t, _) :: _ => rt <= t | [] => True end) ->
  PMid (keep_recs rt recs) t1 p (files_of (remove_older rt (pst None None f))).
Proof using.
  intros (m0 & l & s & Ef & HP & HRc & HI & Hst & Hhi) Hrt1 Hrt. unfold files_of, remove_older, pst. cbn [mirror incs].
  exists m0, (filter (fun x => rt <=? fst x) l), s. cbn [fst snd]. rewrite keep_neg.
  split; [exact Ef|]. split.
  { rewrite (filter_permut _ _ _ HP), filter_app. destruct (snd s); cbn; [|reflexivity].
    now rewrite (proj2 (Z.leb_le _ _) Hrt1). }
  split; [rewrite ghead_keep by assumption; exact HRc|]. split; [now apply inv_keep|]. split; [now apply strict_keep|now apply hist_keep].
Qed.

Lemma keep_without rt (recs : hrec) : keep_recs rt recs = without [rt] recs.
Proof using. symmetry. apply without_one. Qed.

Lemma removals_pmid rms t1 p : forall recs0 f1 f r, (forall rt b, In (rt, b) rms -> rt <= t1) -> r_path r p = f ->
  PMid ((t1, f1) :: recs0) t1 p f -> PMid (without (map fst rms) ((t1, f1) :: recs0)) t1 p (r_path (gremoves rms r) p).
Proof using.
  induction rms as [|[rt b] rms IH]; intros recs0 f1 f r Hrt Er HPM.
  - cbn [map gremoves fold_left]. rewrite without_nil, Er. exact HPM.
  - assert (H1 : rt <= t1) by (apply (Hrt rt b); now left).
    pose proof (remove_pmid rt _ t1 p f HPM H1 H1) as X. cbn [map fst]. rewrite without_cons, <- keep_without.
    destruct (keep_hd rt ((t1, f1) :: recs0) H1) as [|(t & g & rest & E0 & E)]; [discriminate|]. injection E0 as <- <- <-.
    rewrite E in X |- *. cbn [gremoves fold_left fst snd].
    refine (IH _ _ _ (gremove rt b r) _ _ X).
    + intros rt' b' H'. apply (Hrt rt' b'). now right.
    + cbn [gremove r_path]. now rewrite Er.
Qed.

Lemma keep_rev {A} (f : A -> bool) l : filter f (rev l) = rev (filter f l).
Proof using.
  induction l as [|x l IH]; cbn; [reflexivity|]. rewrite filter_app, IH. cbn. destruct (f x); cbn; [reflexivity|]. apply app_nil_r.
Qed.
Lemma forall2_keep rt (h : list (Z * list (idx * meta attr))) rs : Forall2 matches h rs ->
  Forall2 matches (filter (fun x => rt <=? fst x) h) (filter (fun x => rt <=? fst x) rs).
Proof using.
  induction 1 as [|x y h rs Hm HF IH]; cbn; [constructor|]. destruct Hm as [Et Em]. rewrite <- Et.
  destruct (rt <=? fst x); [constructor; [split; assumption|exact IH]|exact IH].
Qed.

Lemma remove_ginv rt u recs r : recs <> [] -> GInv recs r -> rt <= mirror_time (r_data r) ->
  GInv (keep_recs rt recs) (gremove rt u r) /\ keep_recs rt recs <> [].
Proof using deq_ok.
  intros Hne [HD HP] Hrt. destruct recs as [|[t1 f1] recs]; [congruence|].
  destruct (dinv_last _ _ _ _ HD) as (h & h0 & l0 & HR & Hh & Hm & Hpos & HL & Hl0 & Hmt & Hmd).
  unfold mirror_time in Hrt. rewrite Hm in Hrt.
  assert (E : keep_recs rt ((t1, f1) :: recs) = (t1, f1) :: keep_recs rt recs).
  { cbn. now rewrite (proj2 (Z.leb_le _ _) Hrt). }
  split; [|now rewrite E]. split.
  - rewrite E. destruct HD as (h' & HR' & HF). cbn [gremove r_data].
    exists (filter (fun x => rt <=? fst x) h'). split.
    + rewrite <- without_one. apply R_remove; [exact HR'|]. 
      assert (Hin : In (t1, f1) (rev ((t1, f1) :: recs))) by (apply in_rev; rewrite rev_involutive; now left).
      clear - HF Hin Hrt. induction HF as [|x y h rs [Et _] HF IH]; [destruct Hin|].
      destruct Hin as [->|Hin].
      * exists x. split; [now left|]. now rewrite Et.
      * destruct (IH Hin) as (z & Hz & Hle). exists z. split; [now right|exact Hle].
    + rewrite <- E. unfold keep_recs. rewrite <- keep_rev. now apply forall2_keep.
  - intros p. cbn [gremove r_path]. apply remove_pinv; [apply HP|exact Hrt].
Qed.

(** *** regress --force of a complete repository *)
Lemma cut_last t0 : forall l : list (Z * inc attr), StronglySorted tlt l -> Forall (fun x => fst x <= t0) l ->
  exists i, l = filter (fun x => fst x <? t0) l ++ tail_of t0 i.
Proof using.
  induction 1 as [|[t i] l Hs IH F]; intros HL.
  - exists None. reflexivity.
  - inversion HL as [|? ? H1 H2]; subst. cbn in H1. cbn [filter fst]. destruct (Z.ltb_spec t t0) as [Ht|Ht].
    + destruct (IH H2) as [j E]. exists j. cbn [app]. now rewrite <- E.
    + assert (t = t0) as -> by (apply Z.le_antisymm; assumption).
      destruct l as [|[t' i'] l]; [exists (Some i); reflexivity|].
      exfalso. apply Forall_inv in F. apply Forall_inv in H2. unfold tlt in F. cbn in F, H2.
      exact (Z.lt_irrefl _ (Z.lt_le_trans _ _ _ F H2)).
Qed.
Lemma filter_lt_twice t t0 : t <= t0 -> forall l : list (Z * inc attr),
  filter (fun x => fst x <? t) (filter (fun x => fst x <? t0) l) = filter (fun x => fst x <? t) l.
Proof using.
  intros H. induction l as [|x l IH]; cbn; [reflexivity|].
  destruct (Z.ltb_spec (fst x) t0) as [A|A]; cbn; destruct (Z.ltb_spec (fst x) t) as [B|B]; rewrite ?IH; try reflexivity.
  exfalso. exact (Z.lt_irrefl _ (Z.lt_le_trans _ _ _ B (Z.le_trans _ _ _ H A))).
Qed.

Lemma forced_pmid t1 f1 t0 f0 r0 p f : PInv ((t1, f1) :: (t0, f0) :: r0) p f ->
  (forall c0 a0 c1 a1 b, f0 p = Reg c0 a0 -> f1 p = Reg c1 a1 -> length c1 = length c0 ->
     b = a1 \/ loose a1 b = true -> loose a0 b = true -> c1 = c0) ->
  PMid ((t0, f0) :: r0) t0 p f.
Proof using.
  intros (l & HP & HI & Hst & [HT HH] & HM) Hsh. set (recs := (t0, f0) :: r0) in *.
  pose proof (L_Core.inv_times _ _ _ _ _ HI) as Hts. pose proof (inv_old _ _ _ _ _ HI) as Ho. cbn [recs_p map fst snd] in Ho. cbn [ps_of incs] in Ho.
  assert (Hts' : StronglySorted (fun x y : Z * node => fst y < fst x) (recs_p recs p)) by (inversion Hts; assumption).
  assert (Hlt : t0 < t1).
  { inversion Hts as [|? ? _ F]; subst. apply Forall_inv in F. exact F. }
  assert (Hle : Forall (fun x => fst x <= t0) l).
  { apply Forall_forall. intros x Hx. rewrite Forall_forall in HT, Ho. specialize (HT x Hx). specialize (Ho x Hx). cbn in Ho.
    destruct HT as [E|HT]; [cbn in E; rewrite <- E in Ho; exfalso; exact (Z.lt_irrefl _ Ho)|].
    apply in_map_iff in HT as ([t f'] & E & Hin). cbn in E. rewrite <- E. apply in_split in Hin as (r1 & r2 & Er).
    eapply (recs_p_times recs p r1 t f' r2 t0 f0 r0); eauto. }
  pose proof (inv_sorted _ _ _ _ _ HI) as Hs. cbn in Hs.
  destruct (cut_last t0 l Hs Hle) as [i Ei].
  assert (HI0 := HH [(t1, f1)] t0 f0 r0 eq_refl). fold recs in HI0.
  exists (f0 p), (filter (fun x => fst x <? t0) l), (fst f, i). cbn [fst snd].
  split; [reflexivity|]. split; [now rewrite <- Ei|]. split; [|split; [exact HI0|split]].
  - unfold L_Crash.RecI. cbn [ghead recs]. destruct (f0 p) as [|c0 a0| |] eqn:E0; auto. cbn [fst snd].
    assert (Hin : In (t0, Reg c0 a0) (recs_p ((t1, f1) :: recs) p)).
    { right. left. cbn. now rewrite E0. }
    split; [|split].
    + pose proof (inv_ok _ _ _ _ _ HI) as Hk. rewrite Forall_forall in Hk. exact (Hk _ Hin).
    + intros c' b Ef El. split.
      * pose proof (inv_okm _ _ _ _ _ HI) as Hk. cbn in Hk. rewrite Ef in Hk. exact Hk.
      * intros Hl. pose proof (inv_holds _ _ _ _ _ HI) as Hh. cbn in Hh, Hst. unfold MOk in HM. cbn [ghead] in HM.
        rewrite Ef in Hh, Hst, HM. destruct (f1 p) as [|c1 a1|a1|d1 a1] eqn:E1; cbn in Hh.
        -- discriminate.
        -- destruct HM as (b' & E & Hb). injection E as <- <-. eapply (Hsh c0 a0 c' a1 b); eauto.
        -- destruct Hh; discriminate.
        -- discriminate.
    + pose proof (inv_chain _ _ _ _ _ HI t0 c0 a0 Hin) as Hc. cbn [ps_of incs mirror] in Hc.
      assert (Es : since t0 l = match i with Some i => [i] | None => [] end).
      { rewrite Ei. unfold since. rewrite filter_app, map_app.
        assert (En : filter (fun x : Z * inc attr => t0 <=? fst x) (filter (fun x => fst x <? t0) l) = []).
        { clear. induction l as [|x l IH]; cbn; [reflexivity|]. destruct (fst x <? t0) eqn:E; cbn; [|exact IH].
          apply Z.ltb_lt in E. destruct (Z.leb_spec t0 (fst x)) as [A|A]; [|exact IH]. exfalso. exact (Z.lt_irrefl _ (Z.lt_le_trans _ _ _ E A)). }
        rewrite En. cbn [map app]. destruct i; cbn; [|reflexivity]. now rewrite Z.leb_refl. }
      rewrite Es in Hc. destruct i as [i|]; [right; exists i; auto|left].
      cbn in Hc. destruct (fst f); try discriminate. injection Hc as ->. eauto.
  - unfold strict. cbn. destruct (f0 p); auto.
  - split.
    + apply Forall_forall. intros x Hx. apply filter_In in Hx as [Hx Hl]. apply Z.ltb_lt in Hl. rewrite Forall_forall in HT.
      destruct (HT x Hx) as [E|Hr]; [|exact Hr]. exfalso. cbn in E. rewrite <- E in Hl. exact (Z.lt_irrefl _ (Z.lt_trans _ _ _ Hl Hlt)).
    + intros r1 t f' r2 Er. rewrite filter_lt_twice.
      * apply (HH ((t1, f1) :: r1) t f' r2). cbn [app]. now rewrite <- Er.
      * eapply (recs_p_times recs p r1 t f' r2 t0 f0 r0); eauto.
Qed.

Lemma matches_times h (rs : hrec) : Forall2 matches h rs -> map fst h = map fst rs.
Proof using. induction 1 as [|x y h rs [E _] HF IH]; cbn; [reflexivity|]. now rewrite E, IH. Qed.

Lemma ginv_roots t1 f1 recs0 r h : (forall p, PInv ((t1, f1) :: recs0) p (r_path r p)) -> Forall2 matches h (rev ((t1, f1) :: recs0)) ->
  forall t, In t (map fst (snd (r_path r []))) -> In t (map fst h).
Proof using.
  intros HP HF t Ht. destruct (HP []) as (l & Hl & _ & _ & [HT _] & _). rewrite (matches_times _ _ HF), map_rev, <- in_rev.
  apply in_map_iff in Ht as (x & <- & Hx). rewrite Forall_forall in HT. apply HT. eapply Permutation_in; eassumption.
Qed.

Lemma forced_single t1 f1 r : GInv [(t1, f1)] r -> gforce r = None.
Proof using deq_ok.
  intros [(h & HR & HF) HP]. destruct (reach_inv deq deq_ok h _ HR) as [fs HI].
  pose proof (ginv_roots t1 f1 [] r h HP HF) as Hroots.
  pose proof (forced_mid deq h (r_data r) fs _ HR HI Hroots) as HM.
  unfold gforce. destruct (force_regress _ _) as [d1|]; [|reflexivity].
  destruct HM as (h2 & t0 & l0 & t & l1 & fs2 & d0 & Hh & _). exfalso.
  apply matches_times in HF. rewrite Hh in HF. apply (f_equal (@length Z)) in HF. rewrite !map_length, app_length in HF. cbn in HF.
  rewrite Nat.add_comm in HF. discriminate.
Qed.

Lemma forced_gmid t1 f1 t0 f0 r0 r : GInv ((t1, f1) :: (t0, f0) :: r0) r ->
  (forall p c0 a0 c1 a1 b, f0 p = Reg c0 a0 -> f1 p = Reg c1 a1 -> length c1 = length c0 ->
     b = a1 \/ loose a1 b = true -> loose a0 b = true -> c1 = c0) ->
  exists rc h d0 fs0 h0 l0, gforce r = Some rc /\
    reach deq h d0 /\ inv deq h d0 (fs0 ++ [mk_mf t0 KSnap (recs_of l0)]) /\
    h = h0 ++ [(t0, l0)] /\ markers d0 = [t0] /\ t0 < t1 /\
    (forall p, find_md p (recs_of l0) = meta_of (f0 p)) /\
    Forall2 matches h (rev ((t0, f0) :: r0)) /\
    GMid r0 t0 f0 t1 h fs0 l0 rc.
Proof using deq_ok.
  intros [(h & HR & HF) HP] Hsh. destruct (reach_inv deq deq_ok h _ HR) as [fs HI].
  pose proof (ginv_roots t1 f1 _ r h HP HF) as Hroots.
  pose proof (forced_mid deq h (r_data r) fs _ HR HI Hroots) as HM.
  cbn [rev] in HF. 
  unfold gforce. destruct (force_regress _ _) as [d1|] eqn:Ef.
  2:{ destruct HM as [x ->]. apply (f_equal (@length _)) in HF || (apply matches_times in HF; apply (f_equal (@length Z)) in HF).
      rewrite !map_length, !app_length in HF. cbn in HF. rewrite Nat.add_comm, Nat.add_comm in HF. rewrite <- Nat.add_assoc in HF. cbn in HF. rewrite Nat.add_comm in HF. discriminate. }
  destruct HM as (h2 & tt0 & l0 & tt1 & l1 & fs2 & dd & Hh & Hrl & Hlt & HI' & Hm0 & Hmid & Hd1).
  assert (Hm2 : Forall2 matches (h2 ++ [(tt0, l0)]) (rev r0 ++ [(t0, f0)]) /\ tt1 = t1).
  { rewrite Hh in HF. replace (h2 ++ [(tt0, l0); (tt1, l1)]) with ((h2 ++ [(tt0, l0)]) ++ [(tt1, l1)]) in HF by now rewrite <- app_assoc.
    apply Forall2_app_inv_l in HF as (a & b & H1 & H2 & E). inversion H2 as [|? y ? l2 [Et _] H3]; subst. inversion H3; subst.
    apply app_inj_tail in E as [<- <-]. cbn in Et. auto. }
  destruct Hm2 as [HF2 ->].
  assert (Hm3 : tt0 = t0 /\ forall p, find_md p (recs_of l0) = meta_of (f0 p)).
  { apply Forall2_app_inv_l in HF2 as (a & b & H1 & H2 & E). inversion H2 as [|? y ? l2 [Et Ex] H3]; subst. inversion H3; subst.
    apply app_inj_tail in E as [<- <-]. cbn in Et, Ex. auto. }
  destruct Hm3 as [-> Hmd].
  destruct (tries_done deq deq_ok _ dd fs2 h2 t0 l0 t1 HI' eq_refl Hlt true [] _ Hmid) as (d2 & E2 & Hk2 & P2 & _).
  exists (mk_repo d1 (r_path r)), (h2 ++ [(t0, l0)]), d2, fs2, h2, l0. split; [reflexivity|]. split.
  { rewrite <- Hrl. eapply R_forced; eauto. }
  split.
  { destruct HI' as [HC HA HPm Hpos _]. constructor; auto. exists h2, t0, l0. auto. }
  split; [reflexivity|]. split; [exact Hk2|]. split; [exact Hlt|]. split; [exact Hmd|]. split; [exact HF2|]. split.
  - exact Hmid.
  - intros p. cbn [r_path]. eapply forced_pmid; [apply HP|]. intros c0 a0 c1 a1 b. apply Hsh.
Qed.

(** *** removals beside an interrupted session *)
Lemma forall2_without rts (h : list (Z * list (idx * meta attr))) rs : Forall2 matches h rs ->
  Forall2 matches (without rts h) (without rts rs).
Proof using.
  induction 1 as [|x y h rs Hm HF IH]; unfold without in *; cbn [filter]; [constructor|]. destruct Hm as [Et Em]. rewrite <- Et.
  destruct (forallb _ rts); [constructor; [split; assumption|exact IH]|exact IH].
Qed.
Lemma without_hd rts t1 (f1 : idx -> node) recs0 : (forall rt, In rt rts -> rt <= t1) ->
  without rts ((t1, f1) :: recs0) = (t1, f1) :: without rts recs0.
Proof using.
  intros H. unfold without. cbn [filter fst]. 
  assert (E : forallb (fun rt => rt <=? t1) rts = true) by (apply forallb_forall; intros rt Hr; apply Z.leb_le, H, Hr).
  now rewrite E.
Qed.
Lemma gremoves_data rms : forall r : repo, r_data (gremoves rms r) = removals_dd rms (r_data r).
Proof using. induction rms as [|[rt b] rms IH]; intros r; [reflexivity|]. cbn [gremoves removals_dd fold_left]. apply IH. Qed.

Lemma removals_gmid rms recs0 t1 f1 t h d0 fs0 h0 l0 rc :
  reach deq h d0 -> inv deq h d0 (fs0 ++ [mk_mf t1 KSnap (recs_of l0)]) ->
  h = h0 ++ [(t1, l0)] -> markers d0 = [t1] -> t1 < t ->
  Forall2 matches h (rev ((t1, f1) :: recs0)) ->
  GMid recs0 t1 f1 t h fs0 l0 rc -> (forall rt b, In (rt, b) rms -> rt <= t1) ->
  exists h' d' fs' h1,
    reach deq h' d' /\ inv deq h' d' (fs' ++ [mk_mf t1 KSnap (recs_of l0)]) /\
    h' = h1 ++ [(t1, l0)] /\ markers d' = [t1] /\
    Forall2 matches h' (rev ((t1, f1) :: without (map fst rms) recs0)) /\
    GMid (without (map fst rms) recs0) t1 f1 t h' fs' l0 (gremoves rms rc).
Proof using.
  intros HR HI Hh Hm Ht HF [HM HPM] Hrt.
  destruct (removals_mid deq rms h d0 fs0 h0 t1 l0 t _ HR HI Hh Hm Ht Hrt HM) as (fs1 & h1 & HR' & HI' & Hh' & Hm' & HM').
  assert (Hrt' : forall rt, In rt (map fst rms) -> rt <= t1).
  { intros rt Hr. apply in_map_iff in Hr as ([x b] & <- & Hx). exact (Hrt x b Hx). }
  exists (without (map fst rms) h), (removals_dd rms d0), fs1, h1.
  split; [exact HR'|]. split; [exact HI'|]. split; [exact Hh'|]. split; [exact Hm'|]. split.
  - rewrite <- (without_hd _ _ _ _ Hrt'). unfold without at 2. rewrite <- keep_rev. now apply forall2_without.
  - split; [now rewrite gremoves_data|]. intros p. rewrite <- (without_hd _ _ _ _ Hrt').
    eapply removals_pmid; eauto.
Qed.

(** *** the order of directory listings *)
Lemma relist_ginv recs r r' : recs <> [] -> GInv recs r -> S_Global.relisted r r' -> GInv recs r'.
Proof using.
  intros Hne [HD HP] (Hm & Hf & Ho & Hu & Hp). split.
  - destruct recs as [|x recs]; [congruence|]. destruct HD as (h & HR & HF). exists h. split; [|exact HF].
    eapply R_listing; eauto.
  - intros p. destruct (HP p) as (l & HPl & HI). destruct (Hp p) as [E1 E2]. exists l. rewrite E1. split; [|exact HI].
    rewrite <- E2. exact HPl.
Qed.

(** *** restore *)
Definition recall_tree (q : idx) (lt : list (idx * meta attr)) (f : idx -> node) : @tree attr :=
  map (fun x => (fst x, f (fst x))) (filter (fun x => is_prefix q (fst x)) lt).

Lemma restore_ginv recs r t f q : GInv recs r -> In (t, f) recs ->
  exists lt, sorted_by fst lt /\ (forall p, find_md p (recs_of lt) = meta_of (f p)) /\
    restore_tree patch t q r = Some (recall_tree q lt f).
Proof using deq_ok.
  intros [HD HP] Hin. destruct recs as [|[t1 f1] recs]; [destruct Hin|].
  pose proof (dinv_last _ _ _ _ HD) as (_ & _ & _ & _ & _ & Hm & _).
  destruct HD as (h & HR & HF).
  assert (Hx : exists lt, In (t, lt) h /\ forall p, find_md p (recs_of lt) = meta_of (f p)).
  { assert (Hin' : In (t, f) (rev ((t1, f1) :: recs))) by (apply in_rev; rewrite rev_involutive; exact Hin).
    clear - HF Hin'. induction HF as [|[t' lt] y h rs [Et Ex] HF IH]; [destruct Hin'|].
    destruct Hin' as [->|Hin].
    - exists lt. cbn in Et. subst t'. split; [now left|exact Ex].
    - destruct (IH Hin) as (z & Hz & Hle). exists z. split; [now right|exact Hle]. }
  destruct Hx as (lt & Hlt & Hmd). exists lt.
  assert (Hs : sorted_by fst lt).
  { destruct (reach_inv deq deq_ok h _ HR) as [fs HI]. clear - HI Hlt. pose proof (i_chain _ _ _ _ HI) as HC. clear HI.
    revert h HC Hlt. induction fs as [|f fs IH]; intros [|x h]; cbn; intros HC Hlt; try (destruct Hlt; fail); try (destruct HC; fail).
    destruct x as [t0 lx]. destruct HC as (_ & Hl & _ & HC). destruct Hlt as [E|Hlt]; [now injection E as _ <-|exact (IH h HC Hlt)]. }
  split; [exact Hs|]. split; [exact Hmd|].
  unfold restore_tree, mirror_time_must. rewrite Hm. cbn [hd_error].
  rewrite (C12_every_session_recovered _ deq deq_ok _ _ HR t lt q Hlt).
  unfold recall_tree.
  assert (Hall : forall x, In x (filter (fun x => is_prefix q (fst x)) lt) ->
    restore_rec patch t t1 r (fst x, Some (snd x)) = Some (fst x, f (fst x))).
  { intros [p m] Hx. apply filter_In in Hx as [Hx _].
    assert (Em : Some m = meta_of (f p)).
    { rewrite <- Hmd, find_md_key. unfold recs_of.
      rewrite (map_find (@fst idx (meta attr)) (@fst idx (option (meta attr)))) by reflexivity.
      pose proof (find_key_in fst lt (p, m) Hs Hx) as X. cbn [fst] in X. rewrite X. reflexivity. }
    unfold restore_rec. cbn [fst snd]. destruct (f p) as [|c a|a|d a] eqn:Ef; cbn in Em; try discriminate; injection Em as ->; try reflexivity.
    destruct (HP p) as (l & HPp & HI & _ & _). pose proof (inv_chain _ _ _ _ _ HI t c a) as IC.
    assert (Hr : In (t, Reg c a) (recs_p ((t1, f1) :: recs) p)).
    { unfold recs_p. apply in_map_iff. exists (t, f). cbn. now rewrite Ef. }
    specialize (IC Hr). cbn [ps_of incs mirror] in IC.
    rewrite (restore_fp_ok patch t t1 (ps_of ((t1, f1) :: recs) p (fst (r_path r p)) l) _ c); auto.
    - exact (inv_sorted _ _ _ _ _ HI).
    - exact (inv_old _ _ _ _ _ HI). }
  revert Hall. generalize (filter (fun x : idx * meta attr => is_prefix q (fst x)) lt) as L. clear.
  induction L as [|x L IH]; intros Hall; cbn [map all_some]; [reflexivity|].
  rewrite (Hall x) by now left. rewrite IH; [reflexivity|]. intros y Hy. apply Hall. now right.
Qed.

Lemma recall_sorted q lt f : sorted_by fst lt -> sorted_by fst (recall_tree q lt f).
Proof using.
  intros Hs. unfold recall_tree. eapply map_sorted_by; [|apply filter_sorted_by; exact Hs]. reflexivity.
Qed.
Lemma recall_at q lt f p : sorted_by fst lt -> (forall p, find_md p (recs_of lt) = meta_of (f p)) ->
  node_at (recall_tree q lt f) p = if is_prefix q p then f p else Absent.
Proof using.
  intros Hs Hmd. rewrite node_at_key. unfold recall_tree.
  rewrite (map_find (@fst idx (meta attr)) (@fst idx node)) by reflexivity.
  rewrite (filter_find fst (is_prefix q)). destruct (is_prefix q p); [|reflexivity].
  specialize (Hmd p). rewrite find_md_key in Hmd. unfold recs_of in Hmd.
  rewrite (map_find (@fst idx (meta attr)) (@fst idx (option (meta attr)))) in Hmd by reflexivity.
  destruct (find_key fst p lt) as [x|] eqn:E; cbn in *.
  - apply find_key_some in E as [_ ->]. reflexivity.
  - now destruct (f p).
Qed.
Lemma recall_present q lt f x : (forall p, find_md p (recs_of lt) = meta_of (f p)) -> sorted_by fst lt ->
  In x (recall_tree q lt f) -> snd x <> Absent.
Proof using.
  intros Hmd Hs Hx. unfold recall_tree in Hx. apply in_map_iff in Hx as ([p m] & <- & Hx). apply filter_In in Hx as [Hx _].
  cbn. specialize (Hmd p). rewrite find_md_key in Hmd. unfold recs_of in Hmd.
  rewrite (map_find (@fst idx (meta attr)) (@fst idx (option (meta attr)))) in Hmd by reflexivity.
  pose proof (find_key_in fst lt (p, m) Hs Hx) as X. cbn [fst] in X. rewrite X in Hmd. cbn in Hmd. intros E. rewrite E in Hmd. discriminate.
Qed.
(** two trees with the same content are equal *)
Lemma recall_unique q lt lt' f : sorted_by fst lt -> sorted_by fst lt' ->
  (forall p, find_md p (recs_of lt) = meta_of (f p)) -> (forall p, find_md p (recs_of lt') = meta_of (f p)) ->
  recall_tree q lt f = recall_tree q lt' f.
Proof using.
  intros S1 S2 H1 H2. assert (lt = lt') as ->; [|reflexivity]. apply (sorted_ext fst); auto.
  intros i. specialize (H1 i). specialize (H2 i). rewrite <- H2 in H1. rewrite !find_md_key in H1. unfold recs_of in H1.
  rewrite !(map_find (@fst idx (meta attr)) (@fst idx (option (meta attr)))) in H1 by reflexivity.
  destruct (find_key fst i lt) as [[j m]|] eqn:E1, (find_key fst i lt') as [[j' m']|] eqn:E2; cbn in H1; try discriminate; auto.
  apply find_key_some in E1 as [_ E1]. apply find_key_some in E2 as [_ E2]. cbn in E1, E2. congruence.
Qed.

(** *** progress *)
Lemma session_exists recs r t src o zd : recs <> [] -> GInv recs r -> listing fst src ->
  mirror_time (r_data r) < t -> exists r', gsession t src o zd r = Some r'.
Proof using deq_ok.
  intros Hne [HD HP] Hsrc Hlt. destruct recs as [|[t1 f1] recs]; [congruence|].
  destruct (dinv_last _ _ _ _ HD) as (h & h0 & l0 & HR & Hh & Hm & Hpos & HL & Hl0 & Hmt & Hmd).
  unfold mirror_time in Hlt. rewrite Hm in Hlt.
  assert (Hl : listing fst (new_listing (Some t1) (recs_of l0) src o r)).
  { apply listing_sorted, new_sorted; [now apply listing_sorted|now apply recs_sorted]. }
  destruct (C12_session_never_refused _ deq deq_ok h (r_data r) HR t t1 _ zd HL Hlt Hl) as (E & ops & Eops).
  unfold M_Global.gsession. rewrite E. cbn [old_listing]. rewrite Hmt, Eops. eauto.
Qed.
Lemma first_exists t src o zd : 0 < t -> exists r', gsession t src o zd gempty = Some r'.
Proof using.
  intros H. unfold M_Global.gsession, backup_start. cbn. destruct (Z.leb_spec t 0) as [Hx|Hx]; [|eexists; reflexivity].
  exfalso. exact (Z.lt_irrefl _ (Z.lt_le_trans _ _ _ H Hx)).
Qed.
End G.
