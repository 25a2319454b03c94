(** * C53: the files and changes listed are exactly those of the sessions *)
From Coq Require Import List ZArith Bool Ascii Lia Sorted Permutation.
From Verif Require Import Base L_Base M_Iter L_Iter P_Iter M_Core P_Core M_MetaMgr L_MetaMgr L_MetaDir P_MetaMgr M_Listing S_Listing.
Import List ListNotations.
Local Open Scope Z_scope.

Lemma reach_listing {D} (deq : D -> D -> bool) h d : reach deq h d -> forall t l, In (t, l) h -> listing fst l.
Proof.
  induction 1 as [t l z ops Hp Hl E|h d t l z prev ops H IH Hst Hl E|h d t l z prev ops k rms used tries d' H IH|h d rt u H IH _
    |h d roots d1 used tries d' H IH|h d d' H IH];
    intros v m Hin; auto.
  - destruct Hin as [E1|[]]. now injection E1 as <- <-.
  - apply in_app_iff in Hin as [Hin|[E1|[]]]; [eauto|]. now injection E1 as <- <-.
  - apply filter_In in Hin as [Hin _]. eauto.
  - apply filter_In in Hin as [Hin _]. eauto.
  - apply (IH v). destruct (last_case h) as [E|(h' & x & E)]; rewrite E in Hin |- *; [destruct Hin|].
    rewrite removelast_last in Hin. apply in_app_iff. now left.
  - apply IH in Hin; auto.
Qed.

Lemma reach_times {D} (deq : D -> D -> bool) (Hdeq : forall x y, deq x y = true <-> x = y) h d : reach deq h d ->
  (forall u, In u (map mf_time (mfiles d)) <-> In u (map fst h)) /\ NoDup (map fst h) /\
  exists t l, newest h t l /\ markers d = [t].
Proof.
  intros HR. destruct (reach_inv deq Hdeq h d HR) as [fs HI].
  pose proof (chain_times deq fs h (i_chain _ _ _ _ HI)) as E. split; [|split].
  - intros u. rewrite <- E. split; apply Permutation_in; [|apply Permutation_sym]; apply Permutation_map, (i_perm _ _ _ _ HI).
  - rewrite <- E. pose proof (i_asc _ _ _ _ HI) as A. clear - A. unfold asc in A.
    induction A as [|f l A IH F]; cbn; constructor; auto.
    intros C. apply in_map_iff in C as (g & Eg & Hg). rewrite Forall_forall in F. specialize (F g Hg). lia.
  - destruct (inv_last_session deq h d fs HI) as (t & M & [I1 I2]).
    apply in_map_iff in I1 as ([t' l] & E1 & I1). cbn in E1. subst t'. exists t, l. split; [|assumption].
    split; [assumption|]. intros u m Hu. apply I2. apply in_map_iff. exists (u, m). auto.
Qed.

Lemma nodup_same {A} (h : list (Z * A)) t l l' : NoDup (map fst h) -> In (t, l) h -> In (t, l') h -> l = l'.
Proof.
  induction h as [|[u m] h IH]; cbn; [intros _ []|]. intros N. inversion N as [|? ? N1 N2]; subst.
  intros [E|H] [E'|H'].
  - congruence.
  - injection E as -> ->. destruct N1. apply in_map_iff. exists (t, l'). auto.
  - injection E' as -> ->. destruct N1. apply in_map_iff. exists (t, l). auto.
  - auto.
Qed.

Section Pick.
Context {D : Type} (deq : D -> D -> bool) (Hdeq : forall x y, deq x y = true <-> x = y).

Lemma shown_ok h d r root_incs : reach deq h d -> (forall u, In u root_incs -> In u (map fst h)) ->
  forall t old mt cur, session_as_of r h t old -> newest h mt cur -> shown_time r root_incs d = Some (t, mt).
Proof.
  intros HR Hroot t old mt cur [H1 H2] [N1 N2]. destruct (reach_times deq Hdeq h d HR) as (T & ND & t' & l' & [M1 M2] & M).
  assert (mt = t') by (pose proof (N2 _ _ M1); pose proof (M2 _ _ N1); lia). subst t'.
  unfold shown_time, mirror_time_must. rewrite M. cbn [hd_error].
  set (ts := get_increment_times mt root_incs (map mf_time (mfiles d))).
  assert (Hts : forall x, In x ts <-> In x (map fst h)).
  { intros x. unfold ts. rewrite C34_candidate_times, T. split; [|tauto].
    intros [->|[H|H]]; auto. apply in_map_iff. exists (mt, l'). auto. }
  assert (Hin : forall u, In u (map fst h) <-> exists m, In (u, m) h).
  { intros u. rewrite in_map_iff. split; [intros ([a b] & <- & Hx); eauto|intros [m Hm]; exists (u, m); auto]. }
  destruct (C34_restore_time_exists r ts) as [x Hx].
  { intros C. assert (In mt ts) as H by (apply Hts, Hin; eauto). now rewrite C in H. }
  rewrite Hx. destruct (C34_restore_time r ts x Hx) as (Hx1 & Hx2).
  apply Hts, Hin in Hx1 as [m Hm].
  assert (Hall : forall u, In u ts -> exists m, In (u, m) h) by (intros u Hu; now apply Hin, Hts).
  assert (Ht : In t ts) by (apply Hts, Hin; eauto).
  assert (x = t); [|now subst].
  destruct H2 as [[A B]|[A B]], Hx2 as [[A' B']|[A' B']].
  - pose proof (B _ _ Hm A'). pose proof (B' _ Ht A). lia.
  - pose proof (B' _ Ht). lia.
  - pose proof (B _ _ Hm). lia.
  - pose proof (B _ _ Hm). pose proof (B' _ Ht). lia.
Qed.

Lemma filter_listing (p : idx) (l : list (idx * D)) : listing fst l ->
  listing fst (map (fun x => (fst x, Some (snd x))) (filter (fun x => is_prefix p (fst x)) l)).
Proof.
  unfold listing. induction 1 as [|x l H IH F]; cbn; [constructor|].
  destruct (is_prefix p (fst x)); [|assumption]. cbn. constructor; [assumption|].
  rewrite Forall_forall in F |- *. intros y Hy. apply in_map_iff in Hy as (z & <- & Hz).
  apply filter_In in Hz as [Hz _]. cbn. now apply F.
Qed.

Lemma filter_in (p : idx) (l : list (idx * D)) i o :
  In (i, o) (map (fun x => (fst x, Some (snd x))) (filter (fun x => is_prefix p (fst x)) l)) <->
  inside p i /\ exists y, o = Some y /\ In (i, y) l.
Proof.
  rewrite in_map_iff. split.
  - intros ([j y] & E & H). injection E as -> <-. apply filter_In in H as [H1 H2]. split; [now apply C12_restriction_is_subtree|eauto].
  - intros (H1 & y & -> & H2). exists (i, y). split; [reflexivity|]. apply filter_In. split; [assumption|]. now apply C12_restriction_is_subtree.
Qed.

End Pick.

Lemma ssorted_flat {A B} (P : A -> A -> Prop) (Q : B -> B -> Prop) (f : A -> list B) l :
  (forall a b x y, P a b -> In x (f a) -> In y (f b) -> Q x y) -> (forall a, (length (f a) <= 1)%nat) ->
  StronglySorted P l -> StronglySorted Q (flat_map f l).
Proof.
  intros HPQ H1. induction 1 as [|a l H IH F]; cbn; [constructor|].
  pose proof (H1 a) as L. destruct (f a) as [|x [|y r]] eqn:E; cbn in *; [assumption| |lia].
  constructor; [assumption|]. apply Forall_forall. intros y Hy. apply in_flat_map in Hy as (b & Hb & Hy).
  rewrite Forall_forall in F. eapply HPQ; [apply (F b Hb)| |exact Hy]. rewrite E. now left.
Qed.

Lemma ssorted_pair {A} (R : A -> A -> Prop) l : StronglySorted R l -> forall x y, In x l -> In y l -> x = y \/ R x y \/ R y x.
Proof.
  induction 1 as [|a l H IH F]; [intros ? ? []|]. rewrite Forall_forall in F.
  intros x y [->|Hx] [->|Hy]; auto.
Qed.

Lemma before_irrefl i : ~ before i i.
Proof. destruct (C14_order_total i i) as (_ & _ & H). exact H. Qed.

(** There is always a session to show, and only one. *)
Theorem C53_session_shown :
  forall (D : Type) (deq : D -> D -> bool), (forall x y, deq x y = true <-> x = y) ->
  forall h d, reach deq h d -> forall r,
  (exists t l, session_as_of r h t l) /\ (exists t l, newest h t l) /\
  (forall t l t' l', session_as_of r h t l -> session_as_of r h t' l' -> t = t' /\ l = l').
Proof.
  intros D deq Hdeq h d HR r. destruct (reach_times deq Hdeq h d HR) as (T & ND & tn & ln & Hn & _).
  split; [|split].
  - destruct (C34_restore_time_exists r (map fst h)) as [x Hx].
    { destruct Hn as [H _]. destruct h; [destruct H|discriminate]. }
    destruct (C34_restore_time r _ x Hx) as (H1 & H2).
    apply in_map_iff in H1 as ([t l] & E & H1). cbn in E. subst t. exists x, l. split; [assumption|].
    assert (K : forall u m, In (u, m) h -> In u (map fst h)) by (intros u m Hu; apply in_map_iff; exists (u, m); auto).
    destruct H2 as [[A B]|[A B]]; [left|right]; split; auto; intros; [eapply B|eapply B]; eauto.
  - eauto.
  - intros t l t' l' [H1 H2] [H1' H2'].
    assert (t = t').
    { destruct H2 as [[A B]|[A B]], H2' as [[A' B']|[A' B']].
      - pose proof (B _ _ H1' A'). pose proof (B' _ _ H1 A). lia.
      - pose proof (B' _ _ H1). lia.
      - pose proof (B _ _ H1'). lia.
      - pose proof (B _ _ H1'). pose proof (B' _ _ H1). lia. }
    subst t'. split; [reflexivity|]. eapply nodup_same; eauto.
Qed.

(** `list files --changed-since r` for a path [p]: one line for each path at or
    below [p] which is new, gone or different in the last session compared to the
    session as of [r], with the right word; nothing else; in order. *)
Theorem C53_changes_listed :
  forall (D : Type) (deq req : D -> D -> bool), (forall x y, deq x y = true <-> x = y) ->
  forall h d, reach deq h d ->
  forall r root_incs p, (forall u, In u root_incs -> In u (map fst h)) ->
  forall t old t' cur, session_as_of r h t old -> newest h t' cur ->
  exists out, list_changed req r root_incs p d = Some out /\
    (forall w i, In (w, i) out <-> inside p i /\ tells req old cur i w) /\
    StronglySorted (fun x y => before (snd x) (snd y)) out.
Proof.
  intros D deq req Hdeq h d HR r root_incs p Hroot t old t' cur Hs Hn.
  unfold list_changed. rewrite (shown_ok deq Hdeq h d r root_incs HR Hroot t old t' cur Hs Hn).
  destruct Hs as [Hs _], Hn as [Hn _].
  rewrite (C12_every_session_recovered D deq Hdeq h d HR t old p Hs), (C12_every_session_recovered D deq Hdeq h d HR t' cur p Hn).
  pose proof (filter_listing p old (reach_listing deq h d HR _ _ Hs)) as L1.
  pose proof (filter_listing p cur (reach_listing deq h d HR _ _ Hn)) as L2.
  pose proof (filter_in p old) as I1. pose proof (filter_in p cur) as I2.
  set (a := map (fun x => (fst x, Some (snd x))) (filter (fun x => is_prefix p (fst x)) old)) in *.
  set (b := map (fun x => (fst x, Some (snd x))) (filter (fun x => is_prefix p (fst x)) cur)) in *.
  destruct (C14_collate_two _ _ fst fst a b L1 L2) as (S1 & NN & EX & A1 & A2 & A3).
  cbn zeta in *. set (res := collate2 fst fst a b) in *.
  eexists. split; [reflexivity|]. split.
  - intros w i. rewrite in_flat_map. split.
    + intros ([[x|] [y|]] & Hp & Hw); cbn in Hw.
      * pose proof (EX _ _ Hp) as E. assert (In x a) as Hx by (apply A1; eauto). assert (In y b) as Hy by (apply A2; eauto).
        destruct x as [j ox], y as [j' oy]. cbn in E. subst j'. cbn in Hw.
        apply I1 in Hx as (P1 & x & -> & Hx). apply I2 in Hy as (P2 & y & -> & Hy).
        destruct (req x y) eqn:Er; [destruct Hw|]. destruct Hw as [E|[]]. injection E as <- <-.
        split; [assumption|]. econstructor 3; eauto.
      * assert (In x a) as Hx by (apply A1; eauto). destruct x as [j ox].
        destruct Hw as [E|[]]. cbn in E. injection E as <- <-.
        pose proof Hx as Hxa. apply I1 in Hx as (P1 & x & -> & Hx). split; [assumption|].
        econstructor 2; [eassumption|]. intros y Hy.
        assert (In (j, Some y) b) as Hb by (apply I2; eauto).
        pose proof (A3 _ _ Hxa Hb eq_refl) as Hpair.
        destruct (ssorted_pair _ _ S1 _ _ Hp Hpair) as [E|[E|E]]; [discriminate|exfalso|exfalso].
        -- specialize (E j j). apply (before_irrefl j). apply E; left; eexists; (split; [reflexivity|reflexivity]).
        -- specialize (E j j). apply (before_irrefl j). apply E; left; eexists; (split; [reflexivity|reflexivity]).
      * assert (In y b) as Hy by (apply A2; eauto). destruct y as [j oy].
        destruct Hw as [E|[]]. cbn in E. injection E as <- <-.
        pose proof Hy as Hyb. apply I2 in Hy as (P1 & y & -> & Hy). split; [assumption|].
        econstructor 1; [|eassumption]. intros x Hx.
        assert (In (j, Some x) a) as Ha by (apply I1; eauto).
        pose proof (A3 _ _ Ha Hyb eq_refl) as Hpair.
        destruct (ssorted_pair _ _ S1 _ _ Hp Hpair) as [E|[E|E]]; [discriminate|exfalso|exfalso].
        -- specialize (E j j). apply (before_irrefl j). apply E; right; eexists; (split; [reflexivity|reflexivity]).
        -- specialize (E j j). apply (before_irrefl j). apply E; right; eexists; (split; [reflexivity|reflexivity]).
      * destruct Hw.
    + intros [Hp Ht]. destruct Ht as [y Hno Hy|x Hx Hno|x y Hx Hy Hr].
      * assert (In (i, Some y) b) as Hb by (apply I2; eauto). pose proof Hb as Hb'. apply A2 in Hb as [[[j ox]|] Ho].
        -- exfalso. pose proof (EX _ _ Ho) as E. cbn in E. subst j. assert (In (i, ox) a) as Ha by (apply A1; eauto).
           apply I1 in Ha as (_ & x & _ & Hx). now apply (Hno x).
        -- eexists. split; [exact Ho|]. now left.
      * assert (In (i, Some x) a) as Ha by (apply I1; eauto). apply A1 in Ha as [[[j oy]|] Ho].
        -- exfalso. pose proof (EX _ _ Ho) as E. cbn in E. subst j. assert (In (i, oy) b) as Hb by (apply A2; eauto).
           apply I2 in Hb as (_ & y & _ & Hy). now apply (Hno y).
        -- eexists. split; [exact Ho|]. now left.
      * assert (In (i, Some x) a) as Ha by (apply I1; eauto). assert (In (i, Some y) b) as Hb by (apply I2; eauto).
        eexists. split; [exact (A3 _ _ Ha Hb eq_refl)|]. cbn. rewrite Hr. now left.
  - eapply ssorted_flat; [| |exact S1].
    + intros [pa pb] [qa qb] x y H Hx Hy. apply H.
      * destruct pa as [[i o]|], pb as [[j o']|]; cbn in Hx |- *;
          try (destruct Hx as [<-|[]]; cbn); [|left; eexists; split; reflexivity|right; eexists; split; reflexivity|destruct Hx].
        destruct (match o, o' with Some x0, Some y0 => req x0 y0 | None, None => true | _, _ => false end); [destruct Hx|].
        destruct Hx as [<-|[]]. left. eexists. split; reflexivity.
      * destruct qa as [[i o]|], qb as [[j o']|]; cbn in Hy |- *;
          try (destruct Hy as [<-|[]]; cbn); [|left; eexists; split; reflexivity|right; eexists; split; reflexivity|destruct Hy].
        destruct (match o, o' with Some x0, Some y0 => req x0 y0 | None, None => true | _, _ => false end); [destruct Hy|].
        destruct Hy as [<-|[]]. left. eexists. split; reflexivity.
    + intros [[x|] [y|]]; cbn; auto. destruct (match snd x, snd y with Some _, Some _ => _ | None, None => true | _, _ => false end); cbn; lia.
Qed.

(** `list files --at r` for a path [p]: exactly the paths at or below [p] stored by
    the session as of [r], each once, in order. *)
Theorem C53_files_listed :
  forall (D : Type) (deq : D -> D -> bool), (forall x y, deq x y = true <-> x = y) ->
  forall h d, reach deq h d ->
  forall r root_incs p, (forall u, In u root_incs -> In u (map fst h)) ->
  forall t l, session_as_of r h t l ->
  exists out, list_at r root_incs p d = Some out /\
    (forall i, In i out <-> inside p i /\ exists x, In (i, x) l) /\
    StronglySorted before out.
Proof.
  intros D deq Hdeq h d HR r root_incs p Hroot t l Hs.
  destruct (reach_times deq Hdeq h d HR) as (_ & _ & t' & cur & Hn & _).
  unfold list_at. rewrite (shown_ok deq Hdeq h d r root_incs HR Hroot t l t' cur Hs Hn).
  destruct Hs as [Hs _].
  rewrite (C12_every_session_recovered D deq Hdeq h d HR t l p Hs).
  pose proof (filter_listing p l (reach_listing deq h d HR _ _ Hs)) as L1. pose proof (filter_in p l) as I1.
  set (a := map (fun x => (fst x, Some (snd x))) (filter (fun x => is_prefix p (fst x)) l)) in *.
  eexists. split; [reflexivity|]. split.
  - intros i. rewrite in_map_iff. split.
    + intros ([j o] & <- & H). apply I1 in H as (P & x & _ & H). cbn. eauto.
    + intros (P & x & H). exists (i, Some x). split; [reflexivity|]. apply I1. eauto.
  - clear - L1. unfold listing in L1. induction L1 as [|x a H IH F]; cbn; constructor; auto.
    rewrite Forall_forall in F |- *. intros i Hi. apply in_map_iff in Hi as (y & <- & Hy). auto.
Qed.

(** ** The printed lines *)

(** a file name *)
Definition a_name (x : bytes) : Prop := x <> [] /\ ~ In "/"%char x.

Lemma app_sep x y (a b : bytes) : ~ In "/"%char x -> ~ In "/"%char y ->
  x ++ "/"%char :: a = y ++ "/"%char :: b -> x = y /\ a = b.
Proof.
  revert y. induction x as [|c x IH]; intros [|c' y] Hx Hy E; cbn in *.
  - injection E as ->. auto.
  - injection E as <- _. destruct Hy. now left.
  - injection E as -> _. destruct Hx. now left.
  - injection E as -> E. destruct (IH y) as [-> ->]; auto.
Qed.
Lemma app_nosep x y (a : bytes) : ~ In "/"%char y -> x ++ "/"%char :: a <> y.
Proof. intros H <-. apply H, in_app_iff. right. now left. Qed.

Lemma join_slash_inj i : forall j, Forall a_name i -> Forall a_name j -> join_slash i = join_slash j -> i = j.
Proof.
  induction i as [|x i IH]; intros [|y j] Hi Hj E; [reflexivity| | |].
  - exfalso. inversion Hj as [|? ? [H _]]; subst. cbn [join_slash] in E. destruct j; [now symmetry in E|].
    destruct y; [now apply H|discriminate].
  - exfalso. inversion Hi as [|? ? [H _]]; subst. cbn [join_slash] in E. destruct i; [contradiction|].
    destruct x; [now apply H|discriminate].
  - inversion Hi as [|? ? [H1 H2] H3]; inversion Hj as [|? ? [H1' H2'] H3']; subst.
    change (bs "/") with ["/"%char] in *.
    destruct i as [|x' i], j as [|y' j].
    + cbn [join_slash] in E. now subst.
    + exfalso. cbn [join_slash] in E. symmetry in E. revert E. change (bs "/") with ["/"%char]. cbn [app]. now apply app_nosep.
    + exfalso. cbn [join_slash] in E. revert E. change (bs "/") with ["/"%char]. cbn [app]. now apply app_nosep.
    + change (x ++ "/"%char :: join_slash (x' :: i) = y ++ "/"%char :: join_slash (y' :: j)) in E.
      apply app_sep in E as [-> E]; auto. f_equal. now apply IH.
Qed.

(** Different entries give different lines: the word and the path can be read off. *)
Theorem C53_lines_distinct : forall w i w' j,
  Forall a_name i -> Forall a_name j -> i <> [bs "."] -> j <> [bs "."] ->
  change_line (w, i) = change_line (w', j) -> w = w' /\ i = j.
Proof.
  intros w i w' j Hi Hj Ni Nj E. unfold change_line in E. cbn [fst snd] in E.
  assert (w = w' /\ indexpath i = indexpath j) as [-> E2].
  { assert (L : length (change_word w) = length (change_word w')) by (destruct w, w'; reflexivity).
    assert (A : change_word w = change_word w' /\ bs " " ++ indexpath i = bs " " ++ indexpath j).
    { clear - E L. revert L E. generalize (change_word w), (change_word w'), (bs " " ++ indexpath i), (bs " " ++ indexpath j).
      intros a. induction a as [|c a IH]; intros [|c' b] x y L E; try discriminate; [auto|]. cbn in *. injection E as -> E.
      destruct (IH b x y) as [-> ->]; auto. }
    destruct A as [A B]. split; [|now injection B]. destruct w, w'; try reflexivity; vm_compute in A; discriminate. }
  split; [reflexivity|]. unfold indexpath in E2.
  destruct i as [|x i], j as [|y j]; [reflexivity| | |now apply join_slash_inj].
  - exfalso. apply Nj. apply (join_slash_inj (y :: j) [bs "."]); [assumption| |now symmetry].
    constructor; [|constructor]. split; [discriminate|]. intros [C|[]]. discriminate.
  - exfalso. apply Ni. apply (join_slash_inj (x :: i) [bs "."]); [assumption| |assumption].
    constructor; [|constructor]. split; [discriminate|]. intros [C|[]]. discriminate.
Qed.

(** ** A non-trivial case: three sessions; a file changed, one deleted, one new *)
Definition ex_l1 : list (idx * Z) := [([], 1); ([bs "a"], 5); ([bs "d"], 2); ([bs "d"; bs "x"], 7)].
Definition ex_l2 : list (idx * Z) := [([], 1); ([bs "a"], 6); ([bs "d"], 2); ([bs "d"; bs "x"], 7)].
Definition ex_l3 : list (idx * Z) := [([], 1); ([bs "a"], 6); ([bs "b"], 9); ([bs "d"], 2); ([bs "d"; bs "y"], 7)].
Definition ex_step (prev : option Z) (t : Z) (l : list (idx * Z)) (d : @ddir Z) : ddir :=
  match session_dops Z.eqb prev t l (mk_dn [] [] 1 true max_diff_chain) d with
  | Some o => run_dops o d
  | None => d
  end.
Definition ex_d1 := ex_step None 10 ex_l1 empty_dd.
Definition ex_d2 := ex_step (Some 10) 20 ex_l2 ex_d1.
Definition ex_d3 := ex_step (Some 20) 30 ex_l3 ex_d2.
Example ex_reach : reach Z.eqb [(10, ex_l1); (20, ex_l2); (30, ex_l3)] ex_d3.
Proof.
  refine (R_session Z.eqb [(10, ex_l1); (20, ex_l2)] ex_d2 30 ex_l3 (mk_dn [] [] 1 true max_diff_chain) (Some 20) _ _ eq_refl _ eq_refl).
  - refine (R_session Z.eqb [(10, ex_l1)] ex_d1 20 ex_l2 (mk_dn [] [] 1 true max_diff_chain) (Some 10) _ _ eq_refl _ eq_refl).
    + refine (R_first Z.eqb 10 ex_l1 (mk_dn [] [] 1 true max_diff_chain) _ _ _ eq_refl); [lia|].
      apply listing_sorted; vm_compute; repeat constructor.
    + apply listing_sorted; vm_compute; repeat constructor.
  - apply listing_sorted; vm_compute; repeat constructor.
Qed.
Example ex_changed :
  list_changed Z.eqb 15 [10; 20] [] ex_d3 = Some [(CChanged, [bs "a"]); (CNew, [bs "b"]); (CDeleted, [bs "d"; bs "x"]); (CNew, [bs "d"; bs "y"])] /\
  list_changed Z.eqb 25 [10; 20] [bs "d"] ex_d3 = Some [(CDeleted, [bs "d"; bs "x"]); (CNew, [bs "d"; bs "y"])] /\
  list_at 5 [10; 20] [bs "d"] ex_d3 = Some [[bs "d"]; [bs "d"; bs "x"]].
Proof. vm_compute. auto. Qed.

Print Assumptions C53_session_shown.
Print Assumptions C53_changes_listed.
Print Assumptions C53_files_listed.
Print Assumptions C53_lines_distinct.
