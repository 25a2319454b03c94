(** Lemmas about M_Core *)
From Coq Require Import List ZArith Bool Lia Sorting.Permutation Sorting.Sorted.
From Verif Require Import Base L_Base M_Core.
Import List ListNotations.
Local Open Scope Z_scope.

Section S.
Context {attr : Type}.
Variable delta : bytes -> bytes -> bytes.
Variable patch : bytes -> bytes -> option bytes.
Variable sha1 : attr -> bytes -> option bytes.
Variable same : attr -> attr -> bool.
(** the contents which occur *)
Variable P : bytes -> Prop.
Hypothesis occ_nil : P [].
Hypothesis patch_delta : forall basis new, P basis -> P new -> patch basis (delta basis new) = Some new.

Notation node := (node attr).
Notation inc := (inc attr).
Notation incl := (list (Z * inc)).
Notation make_increment := (make_increment delta).
Notation restore_fp := (restore_fp patch).
Notation restore := (restore patch).
Notation apply_diffs := (apply_diffs patch).

(** content described by a list of increments (oldest first) over a mirror *)
Fixpoint chain (l : list inc) (m : node) : option bytes :=
  match l with
  | [] => match m with Reg c _ => Some c | _ => None end
  | IDiff d :: l' => match chain l' m with Some b => patch b d | None => None end
  | ISnap (Reg c _) :: _ => Some c
  | _ :: _ => None
  end.

Definition okn (n : node) : Prop := match n with Reg c _ => P c | _ => True end.

Lemma chain_step l new m : okn new -> okn m ->
  chain (l ++ [make_increment new m]) new = chain l m.
Proof.
  intros Hn Hm. induction l as [|i l IH]; cbn [app chain].
  - destruct m; cbn; try reflexivity. destruct new; cbn; try reflexivity.
    now apply patch_delta.
  - destruct i; cbn; try reflexivity. now rewrite IH.
Qed.

(* successful patch sequences *)
Inductive patches : bytes -> list inc -> bytes -> Prop :=
| P_nil c : patches c [] c
| P_cons c d c' l c'' : patch c d = Some c' -> patches c' l c'' ->
    patches c (IDiff d :: l) c''.

Lemma patches_apply c l c' : patches c l c' -> apply_diffs c l = ROk c'.
Proof using. induction 1; cbn; [reflexivity|]. now rewrite H. Qed.

Lemma patches_snoc c l c' d c'' :
  patches c l c' -> patch c' d = Some c'' -> patches c (l ++ [IDiff d]) c''.
Proof using. induction 1; cbn; intros; econstructor; eauto. constructor. Qed.

(** the algorithm of the code computes [chain] *)
Definition rel (L : list inc) (m : node) : list inc :=
  let l := take_relevant L in
  if last_is_diff l then rev (l ++ [ISnap m]) else rev l.

Lemma last_is_diff_cons (i : inc) l :
  last_is_diff (i :: l) = match l with [] => is_diff i | _ => last_is_diff l end.
Proof using.
  unfold last_is_diff. cbn [rev]. destruct l as [|j l]; [reflexivity|].
  destruct (rev (j :: l)) eqn:E; [|reflexivity].
  exfalso. apply (f_equal (@length _)) in E. rewrite rev_length in E. discriminate.
Qed.

Lemma rel_cons_diff d (L : list inc) m : rel (IDiff d :: L) m = rel L m ++ [IDiff d].
Proof using.
  unfold rel. cbn [take_relevant is_diff]. rewrite last_is_diff_cons.
  destruct (take_relevant L) as [|j l] eqn:E; cbn; [reflexivity|].
  destruct (last_is_diff (j :: l)); reflexivity.
Qed.

Lemma rel_chain L m c : chain L m = Some c ->
  exists c0 a0 rest, rel L m = ISnap (Reg c0 a0) :: rest /\ patches c0 rest c /\
    forall d, inc_isreg (last (rel L m) d) = true.
Proof using.
  revert c. induction L as [|i L IH]; intros c H.
  - cbn in H. destruct m as [|c0 a0| |]; try discriminate. injection H as ->.
    exists c, a0, []. cbn. repeat split; constructor.
  - destruct i as [| |n|d].
    + discriminate.
    + discriminate.
    + cbn in H. destruct n as [|c0 a0| |]; try discriminate. injection H as ->.
      exists c, a0, []. cbn. repeat split; constructor.
    + cbn [chain] in H. destruct (chain L m) as [b|] eqn:E; [|discriminate].
      destruct (IH b eq_refl) as (c0 & a0 & rest & H1 & H2 & H3).
      rewrite rel_cons_diff, H1. exists c0, a0, (rest ++ [IDiff d]).
      split; [reflexivity|]. split; [eapply patches_snoc; eauto|].
      intros d0. change ((ISnap (Reg c0 a0) :: rest) ++ [IDiff d]) with
        (((ISnap (Reg c0 a0) :: rest) ++ [IDiff d])). rewrite last_last. reflexivity.
Qed.

Lemma restore_list L m c : chain L m = Some c ->
  match rel L m with
  | [] => RCrash
  | first :: rest =>
      if negb (inc_isreg (last (rel L m) IMissing)) then ROk []
      else match first_fp first with
           | ROk c => apply_diffs c rest
           | e => e
           end
  end = ROk c.
Proof using.
  intros H. destruct (rel_chain _ _ _ H) as (c0 & a0 & rest & H1 & H2 & H3).
  rewrite H3. rewrite H1. cbn. now apply patches_apply.
Qed.

(** sorting *)
Definition tlt (x y : Z * inc) := fst x < fst y.

Lemma insert_perm (x : Z * inc) l : Permutation (x :: l) (insert_inc x l).
Proof using.
  induction l as [|y l IH]; cbn; [constructor; constructor|].
  destruct (fst x <=? fst y); [reflexivity|].
  rewrite perm_swap. now constructor.
Qed.

Lemma sort_perm (l : incl) : Permutation l (sort_incs l).
Proof using.
  induction l; cbn; [constructor|]. rewrite <- insert_perm. now constructor.
Qed.

Lemma insert_sorted (x : Z * inc) l : StronglySorted (fun a b => fst a <= fst b) l ->
  StronglySorted (fun a b : Z * inc => fst a <= fst b) (insert_inc x l).
Proof using.
  induction 1 as [|y l Hl IH Hy]; cbn; [repeat constructor|].
  destruct (fst x <=? fst y) eqn:E.
  - apply Z.leb_le in E. constructor; [now constructor|]. constructor; [assumption|].
    eapply Forall_impl; [|exact Hy]. cbn. lia.
  - apply Z.leb_gt in E. constructor; [assumption|].
    assert (Forall (fun b => fst y <= fst b) (x :: l)) as HF by (constructor; [lia|assumption]).
    eapply Permutation_Forall; [apply insert_perm|assumption].
Qed.

Lemma sort_sorted (l : incl) : StronglySorted (fun a b => fst a <= fst b) (sort_incs l).
Proof using. induction l; cbn; [constructor|]. now apply insert_sorted. Qed.

Lemma tlt_nodup (l : incl) : StronglySorted tlt l -> NoDup (map fst l).
Proof using.
  induction 1 as [|y l Hl IH Hy]; cbn; [constructor|]. constructor; [|assumption].
  intros Hin. apply in_map_iff in Hin as (z & E & Hz).
  rewrite Forall_forall in Hy. specialize (Hy _ Hz). unfold tlt in Hy. lia.
Qed.

Lemma sorted_unique (l1 l2 : incl) :
  Permutation l1 l2 -> NoDup (map fst l1) ->
  StronglySorted (fun a b => fst a <= fst b) l1 ->
  StronglySorted (fun a b => fst a <= fst b) l2 -> l1 = l2.
Proof using.
  revert l2. induction l1 as [|x l1 IH]; intros l2 HP HN H1 H2.
  - now apply Permutation_nil in HP.
  - destruct l2 as [|y l2]; [now apply Permutation_sym, Permutation_nil in HP|].
    inversion H1 as [|? ? Hs1 Hf1]; subst. inversion H2 as [|? ? Hs2 Hf2]; subst.
    assert (x = y) as ->.
    { assert (In y (x :: l1)) as Hy by (eapply Permutation_in; [symmetry; exact HP|now left]).
      assert (In x (y :: l2)) as Hx by (eapply Permutation_in; [exact HP|now left]).
      destruct Hy as [Hy|Hy]; [assumption|]. destruct Hx as [Hx|Hx]; [now symmetry|].
      rewrite Forall_forall in Hf1, Hf2. specialize (Hf1 _ Hy). specialize (Hf2 _ Hx).
      exfalso. cbn in HN. inversion HN as [|? ? Hni _]; subst. apply Hni.
      replace (fst x) with (fst y) by (cbn in *; lia). now apply in_map. }
    f_equal. apply IH; auto.
    + eapply Permutation_cons_inv; eassumption.
    + cbn in HN. now inversion HN.
Qed.

Lemma sort_of_perm (l ls : incl) : StronglySorted tlt l -> Permutation ls l ->
  sort_incs ls = l.
Proof using.
  intros Hs HP. symmetry. apply sorted_unique.
  - rewrite <- HP. apply sort_perm.
  - now apply tlt_nodup.
  - clear HP. induction Hs as [|y l Hl IH Hy]; constructor; auto.
    eapply Forall_impl; [|exact Hy]. unfold tlt. lia.
  - apply sort_sorted.
Qed.

Lemma filter_perm {A} (f : A -> bool) l l' : Permutation l l' ->
  Permutation (filter f l) (filter f l').
Proof using.
  induction 1; cbn; auto.
  - destruct (f x); auto.
  - destruct (f x), (f y); auto. constructor.
  - etransitivity; eauto.
Qed.

Lemma filter_sorted {A} (R : A -> A -> Prop) (f : A -> bool) l :
  StronglySorted R l -> StronglySorted R (filter f l).
Proof using.
  induction 1 as [|y l Hl IH Hy]; cbn; [constructor|].
  destruct (f y); [|assumption]. constructor; [assumption|].
  apply Forall_forall. intros z Hz. apply filter_In in Hz as [Hz _].
  rewrite Forall_forall in Hy. auto.
Qed.

Lemma sorted_snoc (l : incl) x : StronglySorted tlt l -> Forall (fun y => fst y < fst x) l ->
  StronglySorted tlt (l ++ [x]).
Proof using.
  induction 1 as [|y l Hl IH Hy]; intros HF; cbn; [repeat constructor|].
  inversion HF; subst. constructor; [auto|].
  apply Forall_app. split; [assumption|]. constructor; [assumption|constructor].
Qed.

(** the part of the increments relevant for time [r], oldest first *)
Definition since (r : Z) (l : incl) : list inc := map snd (filter (fun x => r <=? fst x) l).

Lemma newer_incs_perm r l ls : StronglySorted tlt l -> Permutation ls l ->
  newer_incs r ls = since r l.
Proof using.
  intros Hs HP. unfold newer_incs, since. f_equal. apply sort_of_perm.
  - now apply filter_sorted.
  - now apply filter_perm.
Qed.

Lemma since_app r l t i : since r (l ++ [(t, i)]) =
  since r l ++ (if r <=? t then [i] else []).
Proof using.
  unfold since. rewrite filter_app, map_app. cbn. now destruct (r <=? t).
Qed.

Lemma since_old r (l : incl) : Forall (fun x => fst x < r) l -> since r l = [].
Proof using.
  intros H. unfold since. replace (filter _ l) with (@nil (Z * inc)); [reflexivity|].
  induction H as [|x l Hx Hl IH]; cbn; [reflexivity|].
  now replace (r <=? fst x) with false by (symmetry; apply Z.leb_gt; lia).
Qed.

Lemma restore_fp_ok r mt (ps ps' : pstate) c :
  StronglySorted tlt (incs ps) -> Forall (fun x => fst x < mt) (incs ps) ->
  Permutation (incs ps') (incs ps) -> mirror ps' = mirror ps ->
  chain (since r (incs ps)) (mirror ps) = Some c ->
  restore_fp r mt ps' = ROk c.
Proof using.
  clear patch_delta delta sha1. intros Hs Hf HP Hm Hc. unfold M_Core.restore_fp, relevant_incs. rewrite Hm.
  assert (Hmir : since r (incs ps) = [] ->
    match [ISnap (mirror ps)] with
    | [] => RCrash
    | first :: rest =>
        if negb (inc_isreg (last [ISnap (mirror ps)] IMissing)) then ROk []
        else match first_fp first with ROk c => apply_diffs c rest | e => e end
    end = ROk c).
  { intros E. rewrite E in Hc. exact (restore_list [] (mirror ps) c Hc). }
  destruct (incs ps') as [|x ls] eqn:E.
  - apply Permutation_nil in HP. rewrite HP in Hc, Hmir. now apply Hmir.
  - rewrite <- E in HP; rewrite <- E. clear x ls E. destruct (mt <=? r) eqn:Emt.
    + apply Z.leb_le in Emt. apply Hmir. apply since_old.
      eapply Forall_impl; [|exact Hf]. cbn; lia.
    + rewrite (newer_incs_perm r (incs ps)) by assumption.
      exact (restore_list _ _ _ Hc).
Qed.

(** ** The history invariant *)

(** [m] is what the mirror holds when the metadata describe [v]; the attributes
    of the mirror file don't matter for a restore *)
Definition holds (v m : node) : Prop :=
  match v with
  | Absent => m = Absent
  | Reg c _ => exists a', m = Reg c a'
  | Dir _ => exists a', m = Dir a'
  | Spec d _ => (exists a', m = Spec d a') \/ exists a', m = Reg [] a'
  end.

Notation meta_of := (meta_of sha1).

(** [recs]: newest first, the state recorded for each session *)
Record Inv (recs : list (Z * node)) (ps : pstate) : Prop := mkInv {
  inv_metas : metas ps = map (fun x => (fst x, meta_of (snd x))) recs;
  inv_times : StronglySorted (fun x y => fst y < fst x) recs;
  inv_sorted : StronglySorted tlt (incs ps);
  inv_old : match recs with
            | [] => incs ps = []
            | (t, _) :: _ => Forall (fun x => fst x < t) (incs ps)
            end;
  inv_holds : holds (match recs with (_, v) :: _ => v | [] => Absent end) (mirror ps);
  inv_chain : forall t c a, In (t, Reg c a) recs ->
              chain (since t (incs ps)) (mirror ps) = Some c;
  inv_okm : okn (mirror ps);
  inv_ok : Forall (fun x => okn (snd x)) recs }.

Lemma inv_empty : Inv [] empty_ps.
Proof.
  constructor; cbn; auto; try constructor. intros ? ? ? [].
Qed.

Lemma holds_okn v m : okn v -> holds v m -> okn m.
Proof using occ_nil.
  destruct v; cbn; intros H Hm; try (destruct Hm as [a' ->]; exact H); try (subst; exact H).
  destruct Hm as [[a' ->]|[a' ->]]; [exact I|exact occ_nil].
Qed.

(** what happened to mirror and increments in a session *)
Lemma inv_push recs ps t v m l :
  Inv recs ps -> okn v ->
  (match recs with (t0, _) :: _ => t0 < t | [] => True end) ->
  holds v m ->
  (l = add_inc (match recs with (t0, _) :: _ => Some t0 | [] => None end)
         (make_increment m (mirror ps)) (incs ps)
   \/ (l = incs ps /\ chain [] m = chain [] (mirror ps))) ->
  Inv ((t, v) :: recs) (mk_ps m l ((t, meta_of v) :: metas ps)).
Proof.
  intros [IM IT IS IO IH IC IP IQ] Hok Ht Hv Hl.
  assert (Hcase : (exists t0 v0 r, recs = (t0, v0) :: r /\
             l = incs ps ++ [(t0, make_increment m (mirror ps))])
          \/ (l = incs ps /\ (recs = [] \/ chain [] m = chain [] (mirror ps)))).
  { destruct Hl as [-> | [-> H]]; [|right; auto].
    destruct recs as [|[t0 v0] r]; cbn; [right; auto|left; eauto 6]. }
  clear Hl.
  assert (HlF : Forall (fun x => fst x < t) l).
  { destruct Hcase as [(t0 & v0 & r & -> & ->)|[-> _]].
    - apply Forall_app. split; [|repeat constructor; cbn; assumption].
      eapply Forall_impl; [|exact IO]. cbn in *; lia.
    - destruct recs as [|[t0 v0] r]; [rewrite IO; constructor|].
      eapply Forall_impl; [|exact IO]. cbn in *; lia. }
  constructor; cbn [incs mirror metas map fst snd].
  - now rewrite IM.
  - constructor; [assumption|]. destruct recs as [|[t0 v0] r]; [constructor|].
    inversion IT; subst. constructor; [assumption|].
    eapply Forall_impl; [|eassumption]. cbn in *; lia.
  - destruct Hcase as [(t0 & v0 & r & -> & ->)|[-> _]]; [|assumption].
    now apply sorted_snoc.
  - assumption.
  - assumption.
  - intros t1 c a [E|Hin].
    + injection E as -> ->. cbn in Hv. destruct Hv as [a' ->].
      now rewrite since_old.
    + specialize (IC _ _ _ Hin).
      destruct Hcase as [(t0 & v0 & r & -> & ->)|[-> [->|Hc]]].
      * rewrite since_app.
        replace (t1 <=? t0) with true; [rewrite chain_step; auto; now apply (holds_okn v)|].
        symmetry. apply Z.leb_le. destruct Hin as [E|Hin]; [injection E as -> _; lia|].
        inversion IT; subst. rewrite Forall_forall in H2. specialize (H2 _ Hin).
        cbn in H2. lia.
      * destruct Hin.
      * rewrite <- IC. clear - Hc. induction (since t1 (incs ps)) as [|i L IHL].
        -- assumption.
        -- cbn [chain]. destruct i; try reflexivity. now rewrite IHL.
  - now apply (holds_okn v).
  - now constructor.
Qed.

(** the state recorded by a session for the good outcomes *)
Definition recorded (v s : node) (o : outcome attr) : node :=
  if meta_same same s (meta_of v) then
    match o, s with OFill, Dir _ => s | _, _ => v end
  else match o with
       | OPatchFail => v
       | OListErr => match s with Reg _ _ => Absent | _ => s end
       | _ => s
       end.

Definition good (o : outcome attr) : Prop :=
  match o with OIncFail _ | ORenameFail => False | _ => True end.

Hypothesis sha1_inj : forall a b x y h, P x -> P y -> sha1 a x = Some h -> sha1 b y = Some h -> x = y.

Lemma beq_true x y : beq_bytes x y = true -> x = y.
Proof. unfold beq_bytes. now destruct (list_eq_dec ascii_dec x y). Qed.

Notation session := (session delta sha1 same).
Notation sessions := (sessions delta sha1 same).

Lemma okn_recorded v s o : okn v -> okn s -> okn (recorded v s o).
Proof using.
  intros Hv Hs. unfold recorded. destruct (meta_same _ _ _); [destruct o, s; auto|]. destruct o; auto. destruct s; auto. exact I.
Qed.

Lemma inv_session recs ps t s o :
  Inv recs ps -> good o -> okn s ->
  (match recs with (t0, _) :: _ => t0 < t | [] => True end) ->
  Inv ((t, recorded (match recs with (_, v) :: _ => v | [] => Absent end) s o) :: recs)
      (session t s o ps).
Proof.
  intros HI Hg Hks Ht. pose proof HI as [IM IT IS IO IH IC IP IQ].
  set (v := match recs with (_, v) :: _ => v | [] => Absent end) in *.
  assert (Hlt : last_time ps = match recs with (t0, _) :: _ => Some t0 | [] => None end).
  { unfold last_time. rewrite IM. destruct recs as [|[t0 v0] r]; reflexivity. }
  assert (Hcm : cur_meta ps = meta_of v).
  { unfold cur_meta. rewrite IM. subst v. destruct recs as [|[t0 v0] r]; reflexivity. }
  unfold M_Core.session, update. rewrite Hlt, Hcm. unfold recorded.
  assert (Hkv : okn v).
  { unfold v. destruct recs as [|[t0 v0] r]; [exact I|]. inversion IQ; subst. assumption. }
  assert (Hnew : forall w m, okn w -> holds w m ->
    Inv ((t, w) :: recs)
      (mk_ps m (add_inc (match recs with (t0, _) :: _ => Some t0 | [] => None end)
                  (make_increment m (mirror ps)) (incs ps))
         ((t, meta_of w) :: metas ps))).
  { intros w m Hkw Hw. apply inv_push; auto. }
  assert (Hself : forall w, holds w w) by (intros []; cbn; eauto).
  assert (Hkeep : Inv ((t, v) :: recs) (mk_ps (mirror ps) (incs ps) ((t, meta_of v) :: metas ps))).
  { apply inv_push; auto. }
  destruct (meta_same same s (meta_of v)) eqn:Es.
  { destruct o; try exact Hkeep. destruct s as [|c a|a|d a]; try exact Hkeep.
    destruct v as [| |a'|]; try discriminate. cbn in IH. destruct IH as [a0 IH].
    rewrite IH. replace (make_increment (Dir a) (Dir a0)) with
      (make_increment (Dir a0) (mirror ps)) by (rewrite IH; reflexivity).
    apply Hnew; [exact I|]. cbn. eauto. }
  assert (Hok : Inv ((t, s) :: recs)
    (let '(m, l, md) :=
       if hash_unchanged sha1 s (meta_of v)
       then (copy_attribs s (mirror ps), incs ps, meta_of s)
       else (s, add_inc match recs with [] => None | (t0, _) :: _ => Some t0 end
                 (make_increment s (mirror ps)) (incs ps), meta_of s) in
     mk_ps m l ((t, md) :: metas ps))).
  { destruct (hash_unchanged sha1 s (meta_of v)) eqn:Eh; [|apply Hnew; [exact Hks|apply Hself]].
    destruct s as [|c a| |]; try discriminate. destruct v as [|c' a'| |]; try discriminate.
    cbn in Eh. destruct (sha1 a' c') as [h'|] eqn:E1; [|discriminate]. destruct (sha1 a c) as [h|] eqn:E2; [|discriminate].
    apply beq_true in Eh. subst h'. assert (c' = c) by (eapply sha1_inj; eauto). subst c'.
    cbn in IH. destruct IH as [a0 IH]. rewrite IH. cbn.
    apply (inv_push recs ps t (Reg c a)); auto.
    right. split; [reflexivity|]. rewrite IH. reflexivity. }
  destruct o as [| | | |a|p|]; try (destruct Hg; fail); try exact Hok.
  - exact Hkeep.
  - destruct s as [|c a| |]; (apply Hnew; [exact I|apply Hself]).
  - destruct s as [|c a'|a'|d a']; try (apply Hnew; [first [exact Hks|exact I]|apply Hself]).
    apply Hnew; [exact I|]. cbn. right. eauto.
Qed.

(** recorded states of a whole history *)
Fixpoint recall (recs : list (Z * node)) (h : list (Z * node * outcome attr)) :=
  match h with
  | [] => recs
  | (t, s, o) :: h' =>
      recall ((t, recorded (match recs with (_, v) :: _ => v | [] => Absent end) s o) :: recs) h'
  end.

Definition increasing (h : list (Z * node * outcome attr)) : Prop :=
  StronglySorted (fun x y => fst (fst x) < fst (fst y)) h.

Lemma inv_sessions h : forall recs ps,
  Inv recs ps -> Forall (fun x => good (snd x)) h -> Forall (fun x => okn (snd (fst x))) h -> increasing h ->
  (forall x, In x h -> match recs with (t0, _) :: _ => t0 < fst (fst x) | [] => True end) ->
  Inv (recall recs h) (sessions h ps).
Proof.
  induction h as [|[[t s] o] h IH]; intros recs ps HI Hg Hk Hi Ht; cbn; [assumption|].
  inversion Hg; subst. inversion Hk as [|? ? Hk1 Hk2]; subst. inversion Hi as [|? ? Hi1 Hi2]; subst. apply IH; auto.
  - apply inv_session; auto. exact (Ht (t, s, o) (or_introl eq_refl)).
  - intros x Hx. rewrite Forall_forall in Hi2. exact (Hi2 _ Hx).
Qed.

Lemma meta_at_map t v recs : StronglySorted (fun x y => fst y < fst x) recs ->
  In (t, v) recs ->
  meta_at t (map (fun x : Z * node => (fst x, meta_of (snd x))) recs) = Some (meta_of v).
Proof.
  induction 1 as [|[t0 v0] l Hl IH Hy]; [intros []|]; intros [E|Hin]; cbn.
  - injection E as -> ->. now rewrite Z.eqb_refl.
  - rewrite Forall_forall in Hy. specialize (Hy _ Hin). cbn in Hy.
    replace (t0 =? t) with false by (symmetry; apply Z.eqb_neq; lia). auto.
Qed.

Lemma restore_ok recs ps ps' t v :
  Inv recs ps -> In (t, v) recs ->
  Permutation (incs ps') (incs ps) -> mirror ps' = mirror ps -> metas ps' = metas ps ->
  restore t ps' = ROk v.
Proof using.
  intros [IM IT IS IO IH IC IP IQ] Hin HP Hm HM. unfold M_Core.restore, last_time.
  rewrite HM, IM.
  destruct recs as [|[t0 v0] r]; [destruct Hin|]. cbn [map fst snd].
  change ((t0, meta_of v0) :: map (fun x => (fst x, meta_of (snd x))) r) with
    (map (fun x => (fst x, meta_of (snd x))) ((t0, v0) :: r)).
  rewrite (meta_at_map t v) by assumption.
  destruct v as [|c a|a|d a]; cbn; try reflexivity.
  now rewrite (restore_fp_ok t t0 ps ps' c IS IO HP Hm (IC _ _ _ Hin)).
Qed.

(** ** removal *)
Lemma newer_filter r rt (l : incl) : rt <= r ->
  filter (fun x => r <=? fst x) (filter (fun x => negb (fst x <? rt)) l) =
  filter (fun x => r <=? fst x) l.
Proof.
  intros H. induction l as [|x l IH]; cbn; [reflexivity|].
  destruct (fst x <? rt) eqn:E; cbn.
  - apply Z.ltb_lt in E. replace (r <=? fst x) with false by (symmetry; apply Z.leb_gt; lia).
    assumption.
  - destruct (r <=? fst x); now rewrite IH.
Qed.

Lemma meta_at_filter r rt l : rt <= r ->
  meta_at r (filter (fun x : Z * option (meta attr) => negb (fst x <? rt)) l) = meta_at r l.
Proof.
  intros H. induction l as [|[t m] l IH]; cbn; [reflexivity|].
  destruct (t <? rt) eqn:E; cbn; rewrite ?IH; [|reflexivity].
  apply Z.ltb_lt in E. now replace (t =? r) with false by (symmetry; apply Z.eqb_neq; lia).
Qed.

Lemma newer_incs_remove r rt (l : incl) : rt <= r ->
  newer_incs r (filter (fun x => negb (fst x <? rt)) l) = newer_incs r l.
Proof. intros. unfold newer_incs. now rewrite newer_filter. Qed.

Lemma newer_incs_nil r : @newer_incs attr r [] = [].
Proof. reflexivity. Qed.

Lemma restore_fp_remove r rt mt (ps : @pstate attr) : rt <= r ->
  restore_fp r mt (remove_older rt ps) = restore_fp r mt ps.
Proof.
  intros H. unfold M_Core.restore_fp, relevant_incs, remove_older. cbn [incs mirror].
  destruct (incs ps) as [|x l] eqn:E; [reflexivity|]. rewrite <- E. clear x l E.
  pose proof (newer_incs_remove r rt (incs ps) H) as EN.
  destruct (filter (fun x : Z * inc => negb (fst x <? rt)) (incs ps)) eqn:E2.
  - rewrite newer_incs_nil in EN. rewrite <- EN. now destruct (mt <=? r).
  - rewrite <- E2 in *. destruct (mt <=? r); [reflexivity|]. now rewrite EN.
Qed.

Lemma restore_remove r rt (ps : @pstate attr) mt m l :
  metas ps = (mt, m) :: l -> rt <= mt -> rt <= r ->
  restore r (remove_older rt ps) = restore r ps.
Proof.
  intros EM Hm Hr. unfold M_Core.restore, last_time.
  unfold remove_older at 1 2. cbn [metas]. rewrite EM. cbn [filter fst].
  replace (mt <? rt) with false by (symmetry; apply Z.ltb_ge; lia). cbn [negb].
  replace (meta_at r ((mt, m) :: filter (fun x => negb (fst x <? rt)) l)) with
    (meta_at r ((mt, m) :: l)).
  2:{ cbn. rewrite meta_at_filter; auto. }
  destruct (meta_at r ((mt, m) :: l)) as [[[]|]|]; try reflexivity.
  now rewrite restore_fp_remove.
Qed.

End S.

(** ** time lists *)
Lemma zinsert_perm x l : Permutation (x :: l) (zinsert x l).
Proof.
  induction l as [|y l IH]; cbn; [constructor; constructor|].
  destruct (x <=? y); [reflexivity|]. rewrite perm_swap. now constructor.
Qed.
Lemma zsort_perm l : Permutation l (zsort l).
Proof. induction l; cbn; [constructor|]. rewrite <- zinsert_perm. now constructor. Qed.
Lemma zinsert_sorted x l : StronglySorted Z.le l -> StronglySorted Z.le (zinsert x l).
Proof.
  induction 1 as [|y l Hl IH Hy]; cbn; [repeat constructor|].
  destruct (x <=? y) eqn:E.
  - apply Z.leb_le in E. constructor; [now constructor|]. constructor; [assumption|].
    eapply Forall_impl; [|exact Hy]. lia.
  - apply Z.leb_gt in E. constructor; [assumption|].
    eapply Permutation_Forall; [apply zinsert_perm|]. constructor; [lia|assumption].
Qed.
Lemma zsort_sorted l : StronglySorted Z.le (zsort l).
Proof. induction l; cbn; [constructor|]. now apply zinsert_sorted. Qed.

Lemma sorted_last l d : StronglySorted Z.le l -> forall x, In x l -> x <= last l d.
Proof.
  induction 1 as [|y l Hl IH Hy]; intros x Hx; [destruct Hx|].
  destruct l as [|z l]; [destruct Hx as [->|[]]; cbn; lia|].
  destruct Hx as [->|Hx].
  - rewrite Forall_forall in Hy. change (last (x :: z :: l) d) with (last (z :: l) d).
    specialize (IH z (or_introl eq_refl)). specialize (Hy z (or_introl eq_refl)). lia.
  - apply (IH x Hx).
Qed.

Lemma last_in {A} (l : list A) d : l <> [] -> In (last l d) l.
Proof.
  induction l as [|x l IH]; [congruence|]. intros _. destruct l; [now left|].
  right. apply IH. discriminate.
Qed.

Lemma fold_max_spec l x : let m := fold_left Z.max l x in
  (m = x \/ In m l) /\ x <= m /\ forall y, In y l -> y <= m.
Proof.
  revert x. induction l as [|z l IH]; intros x; cbn; [intuition lia|].
  destruct (IH (Z.max x z)) as (H1 & H2 & H3). repeat split.
  - destruct H1 as [H1|H1]; [|tauto]. rewrite H1. destruct (Z.max_spec x z) as [[? ->]|[? ->]]; tauto.
  - lia.
  - intros y [->|Hy]; [lia|auto].
Qed.
Lemma fold_min_spec l x : let m := fold_left Z.min l x in
  (m = x \/ In m l) /\ m <= x /\ forall y, In y l -> m <= y.
Proof.
  revert x. induction l as [|z l IH]; intros x; cbn; [intuition lia|].
  destruct (IH (Z.min x z)) as (H1 & H2 & H3). repeat split.
  - destruct H1 as [H1|H1]; [|tauto]. rewrite H1. destruct (Z.min_spec x z) as [[? ->]|[? ->]]; tauto.
  - lia.
  - intros y [->|Hy]; [lia|auto].
Qed.
Lemma zmax_list_spec l m : zmax_list l = Some m -> In m l /\ forall y, In y l -> y <= m.
Proof.
  destruct l as [|x l]; [discriminate|]. intros [= <-].
  destruct (fold_max_spec l x) as (H1 & H2 & H3). split.
  - destruct H1 as [->|]; cbn; tauto.
  - intros y [->|Hy]; auto.
Qed.
Lemma zmin_list_spec l m : zmin_list l = Some m -> In m l /\ forall y, In y l -> m <= y.
Proof.
  destruct l as [|x l]; [discriminate|]. intros [= <-].
  destruct (fold_min_spec l x) as (H1 & H2 & H3). split.
  - destruct H1 as [->|]; cbn; tauto.
  - intros y [->|Hy]; auto.
Qed.
Lemma zmax_none l : zmax_list l = None -> l = [].
Proof. now destruct l. Qed.
Lemma zmin_none l : zmin_list l = None -> l = [].
Proof. now destruct l. Qed.

Lemma zmem_in x l : zmem x l = true <-> In x l.
Proof.
  induction l as [|y l IH]; cbn; [intuition discriminate|].
  rewrite orb_true_iff, IH, Z.eqb_eq. intuition.
Qed.
Lemma zdedup_in x l : In x (zdedup l) <-> In x l.
Proof.
  induction l as [|y l IH]; cbn; [tauto|].
  destruct (zmem y l) eqn:E; cbn; rewrite IH; [|tauto].
  apply zmem_in in E. intuition. now subst.
Qed.
Lemma increment_times_in x mt r m :
  In x (get_increment_times mt r m) <-> x = mt \/ In x r \/ In x m.
Proof.
  unfold get_increment_times. split; intros H.
  - apply (Permutation_in _ (Permutation_sym (zsort_perm _))) in H.
    apply (proj1 (zdedup_in _ _)) in H. destruct H as [->|H]; [tauto|].
    apply in_app_iff in H. tauto.
  - apply (Permutation_in _ (zsort_perm _)). apply (proj2 (zdedup_in _ _)).
    destruct H as [->|H]; [now left|]. right. apply in_app_iff. tauto.
Qed.
