(** * C54: the increments listed for a path tell what it was in each session *)
From Coq Require Import List ZArith Bool Ascii Lia Sorted Permutation.
From Verif Require Import Base L_Base M_Core L_Core P_Core M_Listing S_Listing.
Import List ListNotations.
Local Open Scope Z_scope.

(** the outcomes for which the files written are of the right kind: everything
    except an increment left behind half-made and a special file which can't be
    created (an empty regular file takes its place) *)
Definition right_kind {attr} (o : outcome attr) : Prop :=
  match o with OIncFail (Some _) | OSpecialFail _ => False | _ => True end.

Section Types.
Context {attr : Type}.
Variables (delta : bytes -> bytes -> bytes) (patch : bytes -> bytes -> option bytes)
          (sha1 : attr -> bytes -> option bytes) (same : attr -> attr -> bool).
Notation run h := (sessions delta sha1 same h empty_ps).

Definition mtype (m : option (meta attr)) : ftype :=
  match m with
  | None => TMissing
  | Some (MReg _ _ _) => TRegular
  | Some (MDir _) => TDirectory
  | Some (MSpec _ _) => TSpecial
  end.

Definition tl (ps : @pstate attr) : list (Z * ftype) := map (fun x => (fst x, inc_type (snd x))) (incs ps).
Definition typ (t : Z) (ps : @pstate attr) : ftype :=
  match type_as_of t (tl ps) with Some x => x | None => file_type (mirror ps) end.

Record K (ps : @pstate attr) : Prop := {
  k_now : file_type (mirror ps) = mtype (cur_meta ps);
  k_sorted : StronglySorted (fun x y => fst x < fst y) (incs ps);
  k_old : match last_time ps with None => incs ps = [] | Some t => Forall (fun x => fst x < t) (incs ps) end;
  k_times : StronglySorted (fun x y => fst y < fst x) (metas ps);
  k_typ : forall t m, In (t, m) (metas ps) -> typ t ps = mtype m;
  k_in : forall x, In x (incs ps) -> In (fst x) (map fst (metas ps)) }.

Lemma inc_type_make x (m : node attr) : inc_type (make_increment delta x m) = file_type m.
Proof. destruct m; cbn; try reflexivity. destruct x; reflexivity. Qed.

Lemma type_as_of_app t a b : type_as_of t (a ++ b) = match type_as_of t a with Some x => Some x | None => type_as_of t b end.
Proof. induction a as [|[u x] a IH]; cbn; [reflexivity|]. destruct (t <=? u); auto. Qed.
Lemma type_as_of_old t a : Forall (fun x => fst x < t) a -> type_as_of t a = None.
Proof.
  induction 1 as [|[u x] a H F IH]; cbn in *; [reflexivity|]. destruct (Z.leb_spec t u); [lia|assumption].
Qed.

(** what one session does *)
Lemma update_cases prev s o ps : K ps -> right_kind o ->
  let '(m, l, md) := update delta sha1 same prev s o ps in
  file_type m = mtype md /\
  ((l = incs ps /\ file_type m = file_type (mirror ps)) \/
   exists x, l = add_inc prev (make_increment delta x (mirror ps)) (incs ps)).
Proof.
  intros HK Ho. pose proof (k_now ps HK) as N. unfold update.
  set (md := cur_meta ps) in *. set (m0 := mirror ps) in *.
  assert (Hsrc : forall n : node attr, file_type n = mtype (meta_of sha1 n)) by (intros []; reflexivity).
  assert (Hcopy : hash_unchanged sha1 s md = true -> file_type (copy_attribs s m0) = mtype (meta_of sha1 s) /\ file_type (copy_attribs s m0) = file_type m0).
  { destruct s as [|c a|a|d a]; try discriminate. destruct md as [[sz [hh|] b| |]|]; try discriminate. intros _.
    cbn in N. destruct m0; try discriminate. cbn. auto. }
  destruct (meta_same same s md) eqn:E.
  - assert (Hd : file_type m0 = mtype md /\ (incs ps = incs ps /\ file_type m0 = file_type m0 \/
      exists x, incs ps = add_inc prev (make_increment delta x m0) (incs ps))) by (split; auto).
    destruct o; try exact Hd. destruct s as [|c a|a|d a]; try exact Hd.
    split; [|right; eauto]. rewrite N. destruct md as [[]|]; try discriminate. reflexivity.
  - destruct o as [| | | | |part|]; cbn in Ho.
    + destruct (hash_unchanged sha1 s md) eqn:Eh; [destruct (Hcopy eq_refl); split; auto|split; [apply Hsrc|right; eauto]].
    + destruct (hash_unchanged sha1 s md) eqn:Eh; [destruct (Hcopy eq_refl); split; auto|split; [apply Hsrc|right; eauto]].
    + split; auto.
    + destruct s; (split; [try reflexivity; apply Hsrc|right; eauto]).
    + destruct Ho.
    + destruct (hash_unchanged sha1 s md) eqn:Eh; [destruct (Hcopy eq_refl); split; auto|]. destruct part; [destruct Ho|]. split; auto.
    + destruct (hash_unchanged sha1 s md) eqn:Eh; [destruct (Hcopy eq_refl); split; auto|split; [assumption|right; eauto]].
Qed.

Lemma K_session t s o ps : K ps -> right_kind o ->
  match last_time ps with None => True | Some t0 => t0 < t end -> K (session delta sha1 same t s o ps).
Proof.
  intros HK Ho Ht. pose proof HK as [KN KS KO KT KY KI]. unfold session.
  pose proof (update_cases (last_time ps) s o ps HK Ho) as U.
  destruct (update delta sha1 same (last_time ps) s o ps) as [[m l] md]. destruct U as [U1 U2].
  assert (LT : last_time ps = None -> metas ps = []) by (unfold last_time; destruct (metas ps) as [|[? ?] ?]; [auto|discriminate]).
  assert (LT' : forall t0, last_time ps = Some t0 -> exists m0 r, metas ps = (t0, m0) :: r).
  { unfold last_time. intros t0. destruct (metas ps) as [|[? ?] ?]; [discriminate|]. intros [= ->]. eauto. }
  assert (Hl : l = incs ps /\ (file_type m = file_type (mirror ps) \/ metas ps = []) \/
               exists t0 m0 r x, last_time ps = Some t0 /\ metas ps = (t0, m0) :: r /\ l = incs ps ++ [(t0, make_increment delta x (mirror ps))]).
  { destruct U2 as [[-> H]|[x ->]]; [left; auto|]. destruct (last_time ps) as [t0|] eqn:E.
    - right. destruct (LT' t0 eq_refl) as (m0 & r & Em). exists t0, m0, r, x. auto.
    - left. split; [reflexivity|]. right. auto. }
  assert (Hlt : Forall (fun x => fst x < t) l).
  { destruct Hl as [[-> _]|(t0 & m0 & r & x & E & Em & ->)].
    - destruct (last_time ps) as [t0|]; [|rewrite KO; constructor]. eapply Forall_impl; [|exact KO]. cbn. lia.
    - rewrite E in *. apply Forall_app. split; [|constructor; [exact Ht|constructor]]. eapply Forall_impl; [|exact KO]. cbn. lia. }
  constructor; cbn [mirror incs metas].
  - exact U1.
  - destruct Hl as [[-> _]|(t0 & m0 & r & x & E & Em & ->)]; [assumption|]. rewrite E in KO.
    clear - KS KO. induction KS as [|a l H IH F]; cbn; [repeat constructor|]. inversion KO; subst.
    constructor; [auto|]. apply Forall_app. split; [assumption|]. constructor; [assumption|constructor].
  - cbn. exact Hlt.
  - constructor; [assumption|]. apply Forall_forall. intros [u mu] Hu. cbn.
    destruct (last_time ps) as [t0|] eqn:E.
    + destruct (LT' t0 eq_refl) as (m0 & r & Em). rewrite Em in *. destruct Hu as [Eu|Hu]; [injection Eu as -> _; assumption|].
      inversion KT as [|? ? _ F]; subst. rewrite Forall_forall in F. specialize (F _ Hu). cbn in F. lia.
    + rewrite (LT eq_refl) in Hu. destruct Hu.
  - intros u mu [Eu|Hu].
    + injection Eu as -> ->. unfold typ, tl. cbn [incs mirror]. rewrite type_as_of_old; [assumption|].
      clear - Hlt. induction Hlt; cbn; constructor; auto.
    + specialize (KY u mu Hu). unfold typ, tl in *. cbn [incs mirror].
      destruct Hl as [[-> [H|H]]|(t0 & m0 & r & x & E & Em & ->)].
      * destruct (type_as_of u _); congruence.
      * rewrite H in Hu. destruct Hu.
      * rewrite map_app, type_as_of_app. destruct (type_as_of u (map _ (incs ps))); [assumption|].
        cbn. rewrite inc_type_make. replace (u <=? t0) with true; [assumption|]. symmetry. apply Z.leb_le.
        rewrite Em in *. destruct Hu as [Eu|Hu]; [injection Eu as -> _; lia|].
        inversion KT as [|? ? _ F]; subst. rewrite Forall_forall in F. specialize (F _ Hu). cbn in F. lia.
  - intros x Hx. destruct Hl as [[-> _]|(t0 & m0 & r & y & E & Em & ->)]; [right; now apply KI|].
    apply in_app_iff in Hx as [Hx|[<-|[]]]; [right; now apply KI|]. right. rewrite Em. now left.
Qed.

Lemma K_empty : K (@empty_ps attr).
Proof. constructor; cbn; auto; try apply SSorted_nil; intros; contradiction. Qed.

Lemma K_sessions h : forall ps, K ps -> Forall (fun x => right_kind (h_out x)) h -> times_increase h ->
  (forall x, In x h -> match last_time ps with None => True | Some t0 => t0 < h_time x end) ->
  K (sessions delta sha1 same h ps).
Proof.
  induction h as [|[[t s] o] h IH]; intros ps HK Hr Hi Ht; cbn; [assumption|].
  inversion Hr; subst. inversion Hi as [|? ? Hi1 Hi2]; subst. apply IH; auto.
  - apply K_session; auto. exact (Ht (t, s, o) (or_introl eq_refl)).
  - intros x Hx. rewrite Forall_forall in Hi2. specialize (Hi2 x Hx). unfold session.
    destruct (update delta sha1 same (last_time ps) s o ps) as [[m l] md]. exact Hi2.
Qed.

(** sorting *)
Lemma tsort_perm {A} (l : list (Z * A)) : Permutation l (tsort l).
Proof.
  induction l as [|x l IH]; cbn; [constructor|]. rewrite IH at 1. clear.
  induction (tsort l) as [|y l' IH]; cbn; [reflexivity|]. destruct (fst x <=? fst y); [reflexivity|].
  rewrite perm_swap. now apply perm_skip.
Qed.
Lemma tsort_sorted {A} (l : list (Z * A)) : StronglySorted (fun x y => fst x <= fst y) (tsort l).
Proof.
  induction l as [|x l IH]; cbn; [constructor|]. revert IH. generalize (tsort l). clear.
  induction 1 as [|y l' H IH F]; cbn; [repeat constructor|]. destruct (Z.leb_spec (fst x) (fst y)).
  - constructor; [now constructor|]. constructor; [assumption|]. eapply Forall_impl; [|exact F]. cbn. lia.
  - constructor; [assumption|]. apply Forall_forall. intros z Hz.
    assert (In z (x :: l')) as [<-|Hz'].
    { revert Hz. clear. induction l' as [|w l' IH]; cbn; [tauto|]. destruct (fst x <=? fst w); cbn; [tauto|]. intros [<-|Hz]; [auto|]. destruct (IH Hz); auto. }
    + lia.
    + rewrite Forall_forall in F. auto.
Qed.

Lemma sorted_unique {A} (a b : list (Z * A)) : StronglySorted (fun x y => fst x < fst y) a ->
  StronglySorted (fun x y => fst x <= fst y) b -> Permutation a b -> a = b.
Proof.
  intros Ha. revert b. induction Ha as [|x a Ha IH F]; intros b Hb P.
  - apply Permutation_nil in P. now subst.
  - destruct b as [|y b]; [apply Permutation_sym, Permutation_nil in P; discriminate|].
    inversion Hb as [|? ? Hb' Fb]; subst. rewrite Forall_forall in F, Fb.
    assert (x = y).
    { assert (In y (x :: a)) as [E|Hy] by (eapply Permutation_in; [apply Permutation_sym, P|now left]); [assumption|].
      assert (In x (y :: b)) as [E|Hx] by (eapply Permutation_in; [apply P|now left]); [now symmetry|].
      specialize (F _ Hy). specialize (Fb _ Hx). lia. }
    subst y. f_equal. apply IH; [assumption|]. now apply Permutation_cons_inv in P.
Qed.

Lemma StronglySorted_map_fst {A B} (f : A -> B) (l : list (Z * A)) : StronglySorted (fun x y => fst x < fst y) l ->
  StronglySorted (fun x y => fst x < fst y) (map (fun x => (fst x, f (snd x))) l).
Proof.
  induction 1 as [|x l H IH F]; cbn; constructor; auto. apply Forall_forall. intros y Hy. apply in_map_iff in Hy as (z & <- & Hz).
  rewrite Forall_forall in F. exact (F z Hz).
Qed.

(** with the increment files found in any order *)
Lemma get_increments_K ps listing mt : K ps -> Permutation listing (incs ps) -> last_time ps = Some mt ->
  get_increments (mk_ps (mirror ps) listing (metas ps)) = Some (tl ps ++ [(mt, file_type (mirror ps))]) /\
  StronglySorted (fun x y => fst x < fst y) (tl ps ++ [(mt, file_type (mirror ps))]).
Proof.
  intros HK P Hm. pose proof (k_old ps HK) as KO. rewrite Hm in KO.
  assert (Hs : StronglySorted (fun x y => fst x < fst y) (tl ps ++ [(mt, file_type (mirror ps))])).
  { unfold tl. assert (Hs : StronglySorted (fun x y => fst x < fst y) (map (fun x => (fst x, inc_type (snd x))) (incs ps)))
      by (apply StronglySorted_map_fst, (k_sorted ps HK)).
    assert (Ho : Forall (fun x => fst x < mt) (map (fun x => (fst x, inc_type (snd x))) (incs ps))).
    { clear - KO. induction KO; cbn; constructor; auto. }
    clear - Hs Ho. induction Hs as [|a l H IH F]; cbn; [repeat constructor|]. inversion Ho; subst.
    constructor; [auto|]. apply Forall_app. split; [assumption|]. constructor; [assumption|constructor]. }
  split; [|assumption]. unfold get_increments, last_time in *. cbn [metas incs mirror]. rewrite Hm. f_equal.
  symmetry. apply sorted_unique; [assumption|apply tsort_sorted|].
  etransitivity; [|apply tsort_perm]. apply Permutation_app_tail. unfold tl. now apply Permutation_map, Permutation_sym.
Qed.

Lemma restore_mtype t ps n : restore patch t ps = ROk n -> StronglySorted (fun x y => fst y < fst x) (metas ps) ->
  exists m, In (t, m) (metas ps) /\ mtype m = file_type n.
Proof.
  unfold restore. destruct (last_time ps) as [mt|]; [|discriminate]. intros H _.
  destruct (meta_at t (metas ps)) as [m|] eqn:E; [|discriminate].
  assert (Hin : In (t, m) (metas ps)).
  { clear H. induction (metas ps) as [|[u mu] l IH]; cbn in E; [discriminate|].
    destruct (Z.eqb_spec u t); [injection E as ->; subst; now left|right; auto]. }
  exists m. split; [assumption|]. destruct m as [[]|]; cbn in *.
  - destruct (restore_fp patch t mt ps); [|discriminate|discriminate]. injection H as <-. reflexivity.
  - injection H as <-. reflexivity.
  - injection H as <-. reflexivity.
  - injection H as <-. reflexivity.
Qed.
End Types.

(** ** Theorems *)

(** For every session which can be restored, the list of increments of the path
    tells what is restored: a file, a directory, something special or nothing. *)
Theorem C54_types_as_restored :
  forall (attr : Type) delta patch sha1 (same : attr -> attr -> bool) (h : hist attr) listing t n,
  times_increase h -> Forall (fun x => right_kind (h_out x)) h ->
  let repo := sessions delta sha1 same h empty_ps in
  Permutation listing (incs repo) ->
  restore patch t (mk_ps (mirror repo) listing (metas repo)) = ROk n ->
  exists l, get_increments (mk_ps (mirror repo) listing (metas repo)) = Some l /\
            type_as_of t l = Some (file_type n).
Proof.
  intros attr delta patch sha1 same h listing t n Hi Hr repo P HR.
  assert (HK : K repo) by (apply K_sessions; [apply K_empty|assumption|assumption|intros; exact I]).
  destruct (last_time repo) as [mt|] eqn:E; [|unfold restore, last_time in HR, E; cbn [metas] in HR; rewrite E in HR; discriminate].
  destruct (get_increments_K repo listing mt HK P E) as [G S].
  eexists. split; [exact G|].
  destruct (restore_mtype patch t _ n HR (k_times _ HK)) as (m & Hm & Em). cbn [metas] in Hm.
  pose proof (k_typ _ HK t m Hm) as Ht. unfold typ in Ht.
  rewrite type_as_of_app. destruct (type_as_of t (tl repo)); [congruence|].
  cbn. replace (t <=? mt) with true; [congruence|]. symmetry. apply Z.leb_le.
  unfold last_time in E. pose proof (k_times _ HK) as KT. destruct (metas repo) as [|[u mu] r]; [discriminate|].
  injection E as ->. destruct Hm as [Eu|Hu]; [injection Eu as -> _; lia|].
  inversion KT as [|? ? _ F]; subst. rewrite Forall_forall in F. specialize (F _ Hu). cbn in F. lia.
Qed.

(** Together with C01: what the path was in the source. *)
Theorem C54_types_as_saved :
  forall (attr : Type) delta patch sha1 (same : attr -> attr -> bool) (h : hist attr) listing t s o,
  librsync_works (occurs h) delta patch -> no_collision (occurs h) sha1 ->
  times_increase h -> no_late_error h -> changes_show same h -> Forall (fun x => right_kind (h_out x)) h ->
  let repo := sessions delta sha1 same h empty_ps in
  Permutation listing (incs repo) ->
  In (t, s, o) h -> updated o ->
  exists l, get_increments (mk_ps (mirror repo) listing (metas repo)) = Some l /\
            type_as_of t l = Some (file_type s).
Proof.
  intros attr delta patch sha1 same h listing t s o H1 H2 H3 H4 H5 H6 repo P Hin Ho.
  destruct (C01_every_session_restorable attr delta patch sha1 same h listing t s o H1 H2 H3 H4 H5 P Hin Ho) as (n & R & Sn).
  destruct (C54_types_as_restored attr delta patch sha1 same h listing t n H3 H6 P R) as (l & G & T).
  exists l. split; [assumption|]. rewrite T. f_equal. destruct s, n; cbn in *; tauto.
Qed.

(** The entries: oldest first, no time twice, all of them times of sessions; the last
    one is the mirror itself, with the time of the last session. *)
Theorem C54_entries :
  forall (attr : Type) delta sha1 (same : attr -> attr -> bool) (h : hist attr) x listing,
  times_increase (h ++ [x]) -> Forall (fun y => right_kind (h_out y)) (h ++ [x]) ->
  let repo := sessions delta sha1 same (h ++ [x]) empty_ps in
  Permutation listing (incs repo) ->
  exists l, get_increments (mk_ps (mirror repo) listing (metas repo)) = Some (l ++ [(h_time x, file_type (mirror repo))]) /\
    StronglySorted (fun u v => fst u < fst v) (l ++ [(h_time x, file_type (mirror repo))]) /\
    (forall e, In e l -> exists y, In y h /\ h_time y = fst e) /\
    printed_increments (l ++ [(h_time x, file_type (mirror repo))])
      = (length l, l, Some (h_time x, file_type (mirror repo))).
Proof.
  intros attr delta sha1 same h x listing Hi Hr repo P.
  assert (HK : K repo) by (apply K_sessions; [apply K_empty|assumption|assumption|intros; exact I]).
  assert (Hmt : forall g ps, map fst (metas (sessions delta sha1 same g ps)) = rev (map h_time g) ++ map fst (metas ps)).
  { induction g as [|[[t s] o] g IH]; intros ps; cbn; [reflexivity|]. rewrite IH. unfold session.
    destruct (update delta sha1 same (last_time ps) s o ps) as [[m l] md]. cbn [metas map fst]. now rewrite <- app_assoc. }
  assert (E : last_time repo = Some (h_time x)).
  { unfold last_time. pose proof (Hmt (h ++ [x]) empty_ps) as H. fold repo in H. rewrite map_app, rev_app_distr in H. cbn in H.
    destruct (metas repo) as [|[u mu] r]; [discriminate|]. cbn in H. now injection H as -> _. }
  destruct (get_increments_K repo listing _ HK P E) as [G S].
  exists (tl repo). split; [exact G|]. split; [exact S|]. split.
  - intros e He. unfold tl in He. apply in_map_iff in He as (i & <- & Hi'). cbn.
    pose proof (k_in _ HK i Hi') as K1. pose proof (Hmt (h ++ [x]) empty_ps) as H. fold repo in H. rewrite H in K1.
    cbn in K1. rewrite app_nil_r in K1. apply in_rev, in_map_iff in K1 as (y & Ey & Hy).
    pose proof (k_old _ HK) as KO. rewrite E in KO. rewrite Forall_forall in KO. specialize (KO i Hi'). cbn in KO.
    exists y. split; [|assumption]. apply in_app_iff in Hy as [Hy|[<-|[]]]; [assumption|]. lia.
  - unfold printed_increments. rewrite app_length, removelast_last, rev_app_distr. cbn [length rev app hd_error].
    repeat f_equal. lia.
Qed.

(** After `remove increments --older-than` the list still tells the types for what is
    left. *)
Theorem C54_after_removal :
  forall (attr : Type) delta patch sha1 (same : attr -> attr -> bool) (h : hist attr) rt t n,
  times_increase h -> Forall (fun x => right_kind (h_out x)) h ->
  let repo := sessions delta sha1 same h empty_ps in
  restore patch t (remove_older rt repo) = ROk n ->
  exists l, get_increments (remove_older rt repo) = Some l /\ type_as_of t l = Some (file_type n).
Proof.
  intros attr delta patch sha1 same h rt t n Hi Hr repo HR.
  assert (HK : K repo) by (apply K_sessions; [apply K_empty|assumption|assumption|intros; exact I]).
  pose proof HK as [KN KS KO KT KY KI].
  assert (SF : forall A (R : A -> A -> Prop) f l, StronglySorted R l -> StronglySorted R (filter f l)).
  { intros A R f l. induction 1 as [|a l H IH F]; cbn; [constructor|]. destruct (f a); [|assumption].
    constructor; [assumption|]. rewrite Forall_forall in *. intros y Hy. apply filter_In in Hy as [Hy _]. auto. }
  destruct (restore_mtype patch t _ n HR (SF _ _ _ _ KT)) as (m & Hm & Em).
  cbn [metas remove_older] in Hm. apply filter_In in Hm as [Hm Hle]. cbn [fst] in Hle.
  apply negb_true_iff, Z.ltb_ge in Hle.
  assert (E : exists mt m0 r, metas repo = (mt, m0) :: r) by (destruct (metas repo) as [|[u mu] r]; [destruct Hm|eauto]).
  destruct E as (mt & m0 & r & E).
  assert (Hmt : t <= mt).
  { rewrite E in *. destruct Hm as [Eu|Hu]; [injection Eu as -> _; lia|].
    inversion KT as [|? ? _ F]; subst. rewrite Forall_forall in F. specialize (F _ Hu). cbn in F. lia. }
  assert (LT : last_time (remove_older rt repo) = Some mt).
  { unfold last_time. cbn [metas remove_older]. rewrite E. cbn [filter fst]. replace (mt <? rt) with false; [reflexivity|]. symmetry. apply Z.ltb_ge. lia. }
  unfold get_increments. rewrite LT. eexists. split; [reflexivity|]. cbn [incs mirror remove_older].
  set (kept := filter (fun x => negb (fst x <? rt)) (incs repo)).
  assert (LR : last_time repo = Some mt) by (unfold last_time; now rewrite E).
  assert (Hs : StronglySorted (fun x y => fst x < fst y) (map (fun x => (fst x, inc_type (snd x))) kept ++ [(mt, file_type (mirror repo))])).
  { rewrite LR in KO. assert (Hs : StronglySorted (fun x y => fst x < fst y) (map (fun x => (fst x, inc_type (snd x))) kept))
      by (apply StronglySorted_map_fst, SF, KS).
    assert (Ho : Forall (fun x => fst x < mt) (map (fun x => (fst x, inc_type (snd x))) kept)).
    { apply Forall_forall. intros y Hy. apply in_map_iff in Hy as (z & <- & Hz). apply filter_In in Hz as [Hz _].
      rewrite Forall_forall in KO. exact (KO z Hz). }
    clear - Hs Ho. induction Hs as [|a l H IH F]; cbn; [repeat constructor|]. inversion Ho; subst.
    constructor; [auto|]. apply Forall_app. split; [assumption|]. constructor; [assumption|constructor]. }
  rewrite <- (sorted_unique _ _ Hs (tsort_sorted _) (tsort_perm _)).
  rewrite type_as_of_app. pose proof (KY t m Hm) as Ht. unfold typ, tl in Ht.
  assert (Ek : type_as_of t (map (fun x => (fst x, inc_type (snd x))) kept) = type_as_of t (map (fun x => (fst x, inc_type (snd x))) (incs repo))).
  { unfold kept. clear - Hle. induction (incs repo) as [|[u i] l IH]; cbn; [reflexivity|].
    destruct (Z.ltb_spec u rt); cbn.
    - destruct (Z.leb_spec t u); [lia|assumption].
    - destruct (t <=? u); [reflexivity|assumption]. }
  rewrite Ek. destruct (type_as_of t (map _ (incs repo))); [congruence|].
  cbn. replace (t <=? mt) with true; [congruence|]. symmetry. now apply Z.leb_le.
Qed.

(** A special file which can't be created is replaced by an empty file: the list says
    "regular", whereas the restore goes by the metadata. *)
Theorem C54_special_not_created_refuted :
  exists (h : hist Z) t n, times_increase h /\
    let repo := sessions sdelta idhash Z.eqb h empty_ps in
    restore spatch t repo = ROk n /\ n = Spec (bs "fifo") 7 /\
    exists l, get_increments repo = Some l /\ type_as_of t l = Some TRegular.
Proof.
  exists [(1, Spec (bs "fifo") 7, OSpecialFail 7)], 1, (Spec (bs "fifo") 7). split; [repeat constructor|].
  cbn zeta. split; [reflexivity|]. split; [reflexivity|]. eexists. split; reflexivity.
Qed.

(** a path which was missing, a file, another file, a directory, a fifo and missing again *)
Example ex_list :
  let h := [(1, Absent, OOk); (2, Reg (bs "one") 1, OOk); (3, Reg (bs "three") 2, OOk); (4, Reg (bs "three") 2, OOk);
            (5, Dir 1, OOk); (6, Spec (bs "fifo") 1, OOk); (7, Absent, OOk)] in
  let repo := sessions sdelta idhash Z.eqb h empty_ps in
  times_increase h /\ Forall (fun x => right_kind (h_out x)) h /\
  get_increments (mk_ps (mirror repo) (rev (incs repo)) (metas repo)) =
    Some [(1, TMissing); (2, TRegular); (4, TRegular); (5, TDirectory); (6, TSpecial); (7, TMissing)].
Proof.
  cbn zeta. split; [repeat constructor|]. split; [repeat constructor|]. reflexivity.
Qed.

Print Assumptions C54_types_as_restored.
Print Assumptions C54_types_as_saved.
Print Assumptions C54_entries.
Print Assumptions C54_after_removal.
Print Assumptions C54_special_not_created_refuted.
