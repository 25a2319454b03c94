(** * C02, C03: crashed sessions and interrupted regresses (one path) *)
From Coq Require Import List ZArith Bool Lia Sorting.Permutation Sorting.Sorted.
From Verif Require Import Base L_Base M_Core L_Core P_Core M_Crash L_Crash.
Import List ListNotations.
Local Open Scope Z_scope.

(** ** Specification *)

(** same kind and content, attributes apart *)
Definition same_file {attr} (x y : node attr) : Prop :=
  match x, y with
  | Absent, Absent => True
  | Reg c _, Reg c' _ => c = c'
  | Dir _, Dir _ => True
  | Spec d _, Spec d' _ => d = d'
  | _, _ => False
  end.

(** the file carries the recorded attributes, or attributes taken for equal *)
Definition described {attr} (loose : attr -> attr -> bool) (md : option (meta attr))
    (m : node attr) : Prop :=
  match md, m with
  | None, Absent => True
  | Some (MReg sz _ a), Reg c b => length c = sz /\ (b = a \/ loose a b = true)
  | Some (MDir a), Dir b => b = a \/ loose a b = true
  | Some (MSpec d a), Spec d' b => d = d' /\ (b = a \/ loose a b = true)
  | _, _ => False
  end.

(** the failed session is undone: same increments, same metadata, same mirror
    file, and every restore gives what it gave before *)
Definition undone {attr} (patch : bytes -> bytes -> option bytes)
    (loose : attr -> attr -> bool) (before after : @pstate attr) : Prop :=
  incs after = incs before /\ metas after = metas before /\
  same_file (mirror after) (mirror before) /\
  described loose (cur_meta before) (mirror after) /\
  forall r, restore patch r after = restore patch r before.

(** no special file was replaced by an empty regular file *)
Definition no_fallback {attr} (h : hist attr) : Prop :=
  Forall (fun x => match h_out x with OSpecialFail _ => False | _ => True end) h.

(** the content of a regular file of the failed session isn't mistaken for the
    old content: not same size and attributes taken for equal ("assumption 1" of
    the code, _repo_shadow.py:3289-3292) *)
Definition new_content_shows {attr} (loose : attr -> attr -> bool) (h : hist attr)
    (s : node attr) : Prop :=
  forall x c a c' b, In x h -> h_src x = Reg c a -> s = Reg c' b ->
    length c' = length c -> loose a b = true -> c' = c.

(** the contents which occur in any session, completed or not, and the empty one *)
Definition ev_occurs {attr} (l : list (@event attr)) (c : bytes) : Prop :=
  c = [] \/ exists e a, In e l /\ ev_src e = Reg c a.

Section Thms.
Context {attr : Type}.
Variables (delta : bytes -> bytes -> bytes) (patch : bytes -> bytes -> option bytes)
          (sha1 : attr -> bytes -> option bytes) (same loose : attr -> attr -> bool).

Notation run h := (sessions delta sha1 same h empty_ps).
Notation recs_of h := (recall sha1 same [] h).

Lemma strict_recall (P : bytes -> Prop) (h : hist attr) : P [] -> librsync_works P delta patch -> no_collision P sha1 ->
  forall recs ps, Forall (fun x => okn P (snd (fst x))) h ->
  Inv patch sha1 P recs ps -> strict recs ps -> no_late_error h -> no_fallback h -> times_increase h ->
  (forall x, In x h -> match recs with (t0, _) :: _ => t0 < h_time x | [] => True end) ->
  strict (recall sha1 same recs h) (sessions delta sha1 same h ps).
Proof.
  intros Hnil Hd Hsha.
  induction h as [|[[t s] o] h IH]; intros recs ps Hk HI Hst Hg Hf Hi Ht; cbn [recall sessions]; [assumption|].
  inversion Hg as [|? ? Hg1 Hg2]; subst. inversion Hf as [|? ? Hf1 Hf2]; subst.
  inversion Hi as [|? ? Hi1 Hi2]; subst. inversion Hk as [|? ? Hk1 Hk2]; subst. apply IH; auto.
  - apply inv_session; auto. exact (Ht _ (or_introl eq_refl)).
  - apply strict_session with (patch := patch) (P := P); auto. intros a Ha. cbn in *. subst o. assumption.
  - intros x Hx. rewrite Forall_forall in Hi2. exact (Hi2 _ Hx).
Qed.

Lemma recall_from h : forall H recs t v,
  (forall x, In x h -> In x H) -> (forall t v, In (t, v) recs -> from_hist H v) ->
  In (t, v) (recall sha1 same recs h) -> from_hist H v.
Proof.
  induction h as [|[[t0 s0] o0] h IH]; intros H recs t v Hsub Hr Hin; cbn in Hin; [eauto|].
  eapply IH; [intros x Hx; apply Hsub; now right| |exact Hin].
  intros t1 v1 [E|Hin1]; [|eauto]. injection E as <- <-.
  apply recorded_from with (t := t0).
  - destruct recs as [|[t2 v2] r]; [now left|]. apply (Hr t2 v2). now left.
  - apply Hsub. now left.
Qed.

Lemma meta_at_some r recs m :
  meta_at r (map (fun x : Z * node attr => (fst x, meta_of sha1 (snd x))) recs) = Some m ->
  exists v, In (r, v) recs.
Proof.
  induction recs as [|[t v] l IH]; cbn; [discriminate|].
  destruct (t =? r) eqn:E.
  - intros _. apply Z.eqb_eq in E. subst. eauto.
  - intros H. destruct (IH H) as [w Hw]. eauto.
Qed.

Lemma undo (h : hist attr) T1 t s o z k att zl :
  let H := h ++ [(t, s, o)] in
  librsync_works (occurs H) delta patch -> no_collision (occurs H) sha1 -> hashes_known sha1 ->
  times_increase h -> no_late_error h -> no_fallback h ->
  last_time (run h) = Some T1 -> T1 < t ->
  new_content_shows loose h s ->
  exists repo',
    regress_attempts patch sha1 loose T1 t (cur_meta (run h)) att zl
      (crash T1 k (session_prog delta sha1 same s o z (run h)) (run h)) = Some repo' /\
    undone patch loose (run h) repo'.
Proof.
  intros H Hd Hsha Hkn Hi Hg Hf HT Ht Hs.
  assert (Hsub : forall x, In x h -> In x H) by (intros; apply in_or_app; now left).
  assert (Hnil : occurs H []) by now left.
  pose proof (run_inv_on delta patch sha1 same h H Hsub Hd Hsha Hi Hg) as HI.
  assert (Hst : strict (recs_of h) (run h)).
  { apply strict_recall with (P := occurs H); auto; try exact I; try apply inv_empty. now apply occurs_okn. }
  assert (Hks : okn (occurs H) s).
  { destruct s as [|c a| |]; try exact I. right. exists (t, Reg c a, o), a. split; [|reflexivity].
    apply in_or_app. right. now left. }
  pose proof HI as [IM IT IS IO IH IC IP IQ].
  assert (Hfrom : forall t v, In (t, v) (recs_of h) -> from_hist h v).
  { intros t0 v0 H0. eapply recall_from; [intros x Hx; exact Hx| |exact H0]. intros ? ? []. }
  destruct (recs_of h) as [|[t1 v] r] eqn:E.
  { unfold last_time in HT. rewrite IM in HT. discriminate. }
  assert (t1 = T1) as ->.
  { unfold last_time in HT. rewrite IM in HT. cbn in HT. congruence. }
  assert (Hcm : cur_meta (run h) = meta_of sha1 v) by (unfold cur_meta; rewrite IM; reflexivity).
  assert (Hkv : okn (occurs H) v) by (inversion IQ; assumption).
  assert (Hsh : shows loose (occurs H) v s).
  { destruct v as [|c a| |]; try exact I. destruct s as [|c' b| |]; try exact I. cbn. intros Hl.
    split; [exact Hks|]. intros Hlo.
    destruct (Hfrom T1 (Reg c a) (or_introl eq_refl)) as [Hab|(x & Hx & Ex)]; [discriminate|].
    exact (Hs x c a c' b Hx Ex eq_refl Hl Hlo). }
  pose proof (session_keeps delta patch sha1 same loose (occurs H) Hnil Hd s o z v (run h) Hkv Hks IH (hashed_known sha1 loose v _ Hkn) Hcm Hsh) as Hk.
  unfold crash.
  replace (run_pops T1 (firstn k (session_prog delta sha1 same s o z (run h))) (run h)) with
    (conc (run h) T1 (aruns (firstn k (session_prog delta sha1 same s o z (run h))) (mirror (run h), None)))
    by (rewrite <- run_pops_conc, conc_self by assumption; reflexivity).
  rewrite Hcm.
  destruct (attempts_ok delta patch sha1 same loose (occurs H) Hd Hsha (fun a c E => False_ind _ (Hkn a c E)) v (run h) T1 t att zl _ IS IO Ht (keeps_firstn _ _ _ k Hk))
    as (m' & Heq & Hr).
  exists (mk_ps m' (incs (run h)) (metas (run h))). split; [exact Heq|].
  assert (HI' : Inv patch sha1 (occurs H) ((T1, v) :: r) (mk_ps m' (incs (run h)) (metas (run h)))).
  { eapply inv_mirror; eauto. discriminate. }
  repeat split; cbn [incs metas mirror].
  - cbn in IH, Hst. destruct v; cbn in *.
    + now rewrite Hr, IH.
    + destruct Hr as (b & -> & _), IH as [b' ->]. reflexivity.
    + destruct Hr as (b & -> & _), IH as [b' ->]. reflexivity.
    + destruct Hr as (b & -> & _), IH as [[b' ->]|[b' E']]; [reflexivity|]. rewrite E' in Hst. discriminate.
  - rewrite Hcm. destruct v; cbn in *.
    + now subst.
    + destruct Hr as (b & -> & Hb). auto.
    + destruct Hr as (b & -> & Hb). auto.
    + destruct Hr as (b & -> & Hb). auto.
  - intros r0.
    destruct (meta_at r0 (metas (run h))) as [m|] eqn:Em.
    + rewrite IM in Em. apply meta_at_some in Em as [w Hw].
      transitivity (@ROk (node attr) w); [|symmetry].
      * eapply restore_ok; [exact HI'|exact Hw|..]; eauto.
      * eapply restore_ok; [exact HI|exact Hw|..]; eauto.
    + unfold restore, last_time. cbn [metas]. rewrite Em. reflexivity.
Qed.

(** ** histories *)
Definition ev_updated (e : @event attr) : Prop :=
  match e with EvSession _ _ o => updated o | _ => False end.

Lemma ev_recall_in l : forall recs x, In x recs -> In x (ev_recall sha1 same recs l).
Proof.
  induction l as [|[t s o|t s o z k att zl] l IH]; intros recs x Hx; cbn; auto.
  apply IH. now right.
Qed.

Definition ev_from (l : list (@event attr)) (w : node attr) : Prop :=
  w = Absent \/ exists e, In e l /\ ev_src e = w.

Lemma ev_recall_sim l : forall H recs,
  (forall e e' c a c' a', In e H -> In e' H -> ev_src e = Reg c a -> ev_src e' = Reg c' a' ->
     length c = length c' -> same a a' = true -> c = c') ->
  (forall x, In x l -> In x H) -> ev_from H (head_of recs) ->
  forall t s o, In (EvSession t s o) l -> updated o ->
  exists w, In (t, w) (ev_recall sha1 same recs l) /\ same_state same s w.
Proof.
  induction l as [|e l IH]; intros H recs Hc Hsub Hr t s o Hin Ho; [destruct Hin|].
  destruct Hin as [E|Hin].
  - subst e. cbn. eexists. split; [apply ev_recall_in; now left|].
    unfold recorded. destruct (meta_same same s (meta_of sha1 (head_of recs))) eqn:E.
    + assert (Hsv : same_state same s (head_of recs)).
      { destruct s, (head_of recs) eqn:Eh; cbn in *; try discriminate; auto.
        + apply andb_true_iff in E as [E1 E2]. apply Nat.eqb_eq in E1. split; [|now right].
          destruct Hr as [Hv|(x & Hx & Ex)]; [discriminate|].
          apply (Hc (EvSession t (Reg content a) o) x content a content0 a0); auto.
        + apply andb_true_iff in E as [E1 E2]. apply beq_bytes_true in E1. auto. }
      destruct o, s; try assumption. cbn. auto.
    + destruct o; try destruct Ho; destruct s; cbn; auto.
  - destruct e as [t0 s0 o0|t0 s0 o0 z k att zl]; cbn [ev_recall].
    + eapply IH; eauto.
      * intros x Hx. apply Hsub. now right.
      * cbn [head_of].
        assert (ev_from H s0) by (right; exists (EvSession t0 s0 o0); split; [apply Hsub; now left|reflexivity]).
        unfold recorded. destruct (meta_same _ _ _); [destruct o0, s0; assumption|].
        destruct o0; auto. destruct s0; auto. now left.
    + eapply IH; eauto. intros x Hx. apply Hsub. now right.
Qed.
End Thms.

(** ** Theorems *)

(** A session stopped after any number of operations, with anything half-written,
    is undone by the regress. *)
Theorem C02_crashed_session_undone :
  forall (attr : Type) delta patch sha1 (same loose : attr -> attr -> bool)
    (h : hist attr) T1 t s o (z zr : noise attr) k,
  let all := h ++ [(t, s, o)] in
  librsync_works (occurs all) delta patch -> no_collision (occurs all) sha1 -> hashes_known sha1 ->
  times_increase h -> no_late_error h -> no_fallback h ->
  let repo := sessions delta sha1 same h empty_ps in
  last_time repo = Some T1 -> T1 < t ->
  new_content_shows loose h s ->
  let crashed := crash T1 k (session_prog delta sha1 same s o z repo) repo in
  exists ops, regress_prog patch sha1 loose T1 t (cur_meta repo) zr crashed = Some ops /\
    undone patch loose repo (run_pops T1 ops crashed).
Proof.
  intros attr delta patch sha1 same loose h T1 t s o z zr k all Hd Hs Hkn Hi Hg Hf repo HT Ht Hn crashed.
  destruct (undo delta patch sha1 same loose h T1 t s o z k [] zr Hd Hs Hkn Hi Hg Hf HT Ht Hn)
    as (repo' & H1 & H2).
  cbn [regress_attempts] in H1. fold repo crashed in H1.
  destruct (regress_prog patch sha1 loose T1 t (cur_meta repo) zr crashed) as [ops|]; [|discriminate].
  injection H1 as <-. eauto.
Qed.

(** The same when regress is interrupted any number of times, each time after any
    number of operations. *)
Theorem C03_interrupted_regress_completes :
  forall (attr : Type) delta patch sha1 (same loose : attr -> attr -> bool)
    (h : hist attr) T1 t s o (z zr : noise attr) k attempts,
  let all := h ++ [(t, s, o)] in
  librsync_works (occurs all) delta patch -> no_collision (occurs all) sha1 -> hashes_known sha1 ->
  times_increase h -> no_late_error h -> no_fallback h ->
  let repo := sessions delta sha1 same h empty_ps in
  last_time repo = Some T1 -> T1 < t ->
  new_content_shows loose h s ->
  let crashed := crash T1 k (session_prog delta sha1 same s o z repo) repo in
  exists repo', regress_attempts patch sha1 loose T1 t (cur_meta repo) attempts zr crashed = Some repo' /\
    undone patch loose repo repo'.
Proof. intros. eapply undo; eauto. Qed.

(** The sequence of operations, when it isn't interrupted, is the session of
    M_Core. *)
Theorem C02_complete_session_is_atomic_step :
  forall (attr : Type) delta sha1 (same : attr -> attr -> bool)
         (ps : @pstate attr) T1 t s o z,
  last_time ps = Some T1 -> (forall x, In x (incs ps) -> fst x < T1) ->
  let ps' := run_pops T1 (session_prog delta sha1 same s o z ps) ps in
  mirror (session delta sha1 same t s o ps) = mirror ps' /\
  incs (session delta sha1 same t s o ps) = incs ps'.
Proof.
  intros attr delta sha1 same ps T1 t s o z HT Hf ps'. unfold ps'.
  rewrite session_prog_complete; auto.
  - unfold session. rewrite HT. destruct (update _ _ _ _ _ _ _) as [[m l] md]. auto.
  - now apply Forall_forall.
Qed.

(** Histories with any number of crashes and regresses: no regress aborts, and
    all completed sessions stay restorable. *)
Theorem C02_history_with_crashes :
  forall (attr : Type) delta patch sha1 (same loose : attr -> attr -> bool)
    t0 s0 o0 (l : list (@event attr)),
  let evs := EvSession t0 s0 o0 :: l in
  librsync_works (ev_occurs evs) delta patch -> no_collision (ev_occurs evs) sha1 -> hashes_known sha1 ->
  StronglySorted (fun x y => ev_time x < ev_time y) evs ->
  Forall (fun e => match e with
                   | EvSession _ _ (OIncFail _) | EvSession _ _ ORenameFail
                   | EvSession _ _ (OSpecialFail _) => False
                   | _ => True
                   end) evs ->
  (* changes of content show *)
  (forall e e' c a c' a', In e evs -> In e' evs -> ev_src e = Reg c a -> ev_src e' = Reg c' a' ->
     length c = length c' -> same a a' = true \/ loose a a' = true -> c = c') ->
  exists repo, run_events delta patch sha1 same loose evs empty_ps = Some repo /\
    forall t s o, In (EvSession t s o) evs -> updated o ->
    exists n, restore patch t repo = ROk n /\ same_state same s n.
Proof.
  intros attr delta patch sha1 same loose t0 s0 o0 l evs Hd Hs Hkn Hi Hg Hc.
  assert (Hnil : ev_occurs evs []) by now left.
  assert (Hocc : forall e, In e evs -> okn (ev_occurs evs) (ev_src e)).
  { intros e He. destruct (ev_src e) as [|c a| |] eqn:Ee; try exact I. right. eauto. }
  assert (Hgood : Forall ev_good evs).
  { eapply Forall_impl; [|exact Hg]. intros [t s o|]; [|intros; exact I].
    destruct o; cbn; try tauto; intros _; (split; [exact I|discriminate]). }
  assert (Hsh : forall e e', In e evs -> In e' evs -> shows loose (ev_occurs evs) (ev_src e) (ev_src e')).
  { intros e e' He He'. destruct (ev_src e) as [|c a| |] eqn:E1; try exact I.
    destruct (ev_src e') as [|c' b| |] eqn:E2; try exact I. cbn. intros Hl.
    split; [pose proof (Hocc e' He') as Hk; rewrite E2 in Hk; exact Hk|]. intros Hlo.
    symmetry. exact (Hc e e' c a c' b He He' E1 E2 (eq_sym Hl) (or_intror Hlo)). }
  inversion Hi; subst. inversion Hgood; subst. destruct H3 as [Hg0 Hn0].
  assert (HI0 : Inv patch sha1 (ev_occurs evs) [(t0, recorded sha1 same Absent s0 o0)] (session delta sha1 same t0 s0 o0 empty_ps)).
  { exact (inv_session delta patch sha1 same (ev_occurs evs) Hnil Hd Hs [] empty_ps t0 s0 o0 (inv_empty patch sha1 _) Hg0 (Hocc (EvSession t0 s0 o0) (or_introl eq_refl)) I). }
  assert (Hst0 : strict [(t0, recorded sha1 same Absent s0 o0)] (session delta sha1 same t0 s0 o0 empty_ps)).
  { exact (strict_session delta patch sha1 same (ev_occurs evs) [] empty_ps t0 s0 o0 (inv_empty patch sha1 _) I Hg0 Hn0). }
  destruct (events_ok delta patch sha1 same loose (ev_occurs evs) Hnil Hd Hs (fun a c E => False_ind _ (Hkn a c E)) l Hkn _ _ HI0 Hst0) as (repo & Hrun & HI); auto.
  - discriminate.
  - apply Forall_forall. intros e He. apply Hocc. now right.
  - intros e He. rewrite Forall_forall in H2. exact (H2 _ He).
  - intros e e' He He'. apply Hsh; now right.
  - intros e He. cbn [head_of].
    pose proof (Hsh (EvSession t0 s0 o0) e (or_introl eq_refl) (or_intror He)) as H. cbn in H.
    unfold recorded. cbn [meta_of]. destruct (meta_same _ _ _); [destruct o0, s0; try exact I; exact H|].
    destruct o0; try exact H; try exact I. destruct s0; try exact H; exact I.
  - exists repo. split; [exact Hrun|]. intros t s o Hin Ho.
    destruct (ev_recall_sim sha1 same evs evs []) with (t := t) (s := s) (o := o) as (w & Hw & Hsim); auto.
    + intros e e' c a c' a' He He' E1 E2 Hl Hsa. exact (Hc e e' c a c' a' He He' E1 E2 Hl (or_introl Hsa)).
    + now left.
    + exists w. split; [|assumption]. eapply restore_ok; eauto.
Qed.

(** ** Where the code falls short *)

(** Attributes (mtime, owner); equal_loose doesn't compare the recorded owner
    (without change_ownership). *)
Definition mo := (Z * Z)%type.
Definition mo_same (x y : mo) : bool := (fst x =? fst y) && (snd x =? snd y).
Definition mo_loose (x y : mo) : bool := fst x =? fst y.
Definition quiet {attr} (a : attr) : noise attr := mk_noise [] [] a [].

(** If size and mtime are the same but owner and content changed, a session
    which stopped after the file was updated isn't undone: the file of the last
    complete session is lost. *)
Theorem C02_loosely_equal_change_refuted :
  exists (h : hist mo) t s,
    times_increase h /\ no_late_error h /\ no_fallback h /\ changes_show mo_same (h ++ [(t, s, OOk)]) /\
    let repo := sessions sdelta idhash mo_same h empty_ps in
    exists k ops,
      let crashed := crash 10 k (session_prog sdelta idhash mo_same s OOk (quiet (0, 0)) repo) repo in
      regress_prog spatch idhash mo_loose 10 t (cur_meta repo) (quiet (0, 0)) crashed = Some ops /\
      restore spatch 10 repo = ROk (Reg (bs "old") (1, 0)) /\
      restore spatch 10 (run_pops 10 ops crashed) = ROk (Reg (bs "new") (1, 0)).
Proof.
  exists [(10, Reg (bs "old") (1, 0), OOk)], 20, (Reg (bs "new") (1, 7)).
  split; [repeat constructor|]. split; [repeat constructor|]. split; [repeat constructor|].
  split.
  { intros x y c a c' a' Hx Hy. cbn in Hx, Hy.
    destruct Hx as [<-|[<-|[]]], Hy as [<-|[<-|[]]]; cbn; intros E1 E2; inversion E1; inversion E2; subst;
      cbn; intros; solve [congruence|discriminate]. }
  exists 2%nat. eexists. split; [vm_compute; reflexivity|]. split; vm_compute; reflexivity.
Qed.

(** A special file which had to be replaced by an empty file in the mirror: the
    regress of a later session, stopped before it touched this path, destroys the
    basis of the older increments. *)
Theorem C02_special_fallback_refuted :
  exists (h : hist Z),
    times_increase h /\ no_late_error h /\ changes_show Z.eqb h /\
    let repo := sessions sdelta idhash Z.eqb h empty_ps in
    restore spatch 10 repo = ROk (Reg (bs "data") 1) /\
    exists ops,
      regress_prog spatch idhash Z.eqb 20 30 (cur_meta repo) (quiet 0) repo = Some ops /\
      restore spatch 10 (run_pops 20 ops repo) = RCrash.
Proof.
  exists [(10, Reg (bs "data") 1, OOk); (20, Spec (bs "dev") 2, OSpecialFail 2)].
  split; [repeat (constructor; [|repeat constructor; cbn; lia]); constructor|].
  split; [repeat constructor|]. split.
  { intros x y c a c' a' Hx Hy. cbn in Hx, Hy.
    destruct Hx as [<-|[<-|[]]], Hy as [<-|[<-|[]]]; cbn; intros E1 E2; inversion E1; inversion E2; subst;
      cbn; intros; congruence. }
  split; [vm_compute; reflexivity|]. eexists. split; vm_compute; reflexivity.
Qed.

(** ** Examples: the hypotheses are met *)
Definition ex_crash_hist : hist Z :=
  [(10, Reg (bs "one") 1, OOk); (20, Reg (bs "twone") 2, OOk)].

Definition ex_noise : noise Z := mk_noise [IMissing; IDiff (bs "c")] [0; 9] 0 [1%nat; 3%nat].

Example ex_crash_hyps : times_increase ex_crash_hist /\ no_late_error ex_crash_hist /\
  no_fallback ex_crash_hist /\ last_time (sessions sdelta idhash Z.eqb ex_crash_hist empty_ps) = Some 20 /\
  new_content_shows Z.eqb ex_crash_hist (Reg (bs "three") 3).
Proof.
  repeat split.
  - repeat (constructor; [|repeat constructor; cbn; lia]). constructor.
  - repeat constructor.
  - repeat constructor.
  - intros x c a c' b Hx. cbn in Hx. destruct Hx as [<-|[<-|[]]]; cbn; intros E1 E2; inversion E1; inversion E2; subst;
      cbn; discriminate.
Qed.

(* crash right after the file was replaced by a directory, regress interrupted in
   the middle of rewriting the file, then completed *)
Example ex_crash_run :
  let repo := sessions sdelta idhash Z.eqb ex_crash_hist empty_ps in
  let crashed := crash 20 5 (session_prog sdelta idhash Z.eqb (Dir 7) OOk ex_noise repo) repo in
  mirror crashed = Dir 0 /\
  (exists r, regress_attempts spatch idhash Z.eqb 20 30 (cur_meta repo) [(ex_noise, 2%nat)] ex_noise crashed = Some r
   /\ mirror r = Reg (bs "twone") 2 /\ incs r = incs repo).
Proof. vm_compute. split; [reflexivity|]. eexists. repeat split. Qed.

Definition ex_events : list (@event Z) :=
  [EvSession 10 (Reg (bs "one") 1) OOk; EvCrash 20 (Reg (bs "twone") 2) OOk ex_noise 4 [(ex_noise, 1%nat)] ex_noise;
   EvSession 30 (Dir 3) OOk; EvCrash 40 Absent OOk ex_noise 5 [] ex_noise; EvSession 50 (Reg (bs "z") 5) OOk].
Example ex_events_run : exists repo,
  run_events sdelta spatch idhash Z.eqb Z.eqb ex_events empty_ps = Some repo /\
  restore spatch 10 repo = ROk (Reg (bs "one") 1) /\ restore spatch 30 repo = ROk (Dir 3).
Proof. vm_compute. eexists. repeat split. Qed.

Print Assumptions C02_crashed_session_undone.
Print Assumptions C03_interrupted_regress_completes.
Print Assumptions C02_complete_session_is_atomic_step.
Print Assumptions C02_history_with_crashes.
Print Assumptions C02_loosely_equal_change_refuted.
Print Assumptions C02_special_fallback_refuted.
