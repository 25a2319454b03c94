(** * C24, continued: which linked files are left as they are *)
From Coq Require Import List ZArith Bool Ascii Lia.
From Verif Require Import Base L_Base M_Iter L_Iter M_Hardlinks S_Hardlinks L_Hardlinks P_Hardlinks.
Import List ListNotations.
Local Open Scope Z_scope.

(** ** links which changed are noticed *)
Definition sd (pre : list lpair) (t : table) : Prop := forall k e, tget t k = Some e ->
  match l_dest e with
  | DKey kd => exists x0 d0, In (Some x0, Some d0) pre /\ multi x0 = true /\ f_key x0 = k /\ f_key d0 = kd
  | DNA => exists x0 d0, In (Some x0, Some d0) pre /\ multi x0 = true /\ f_key x0 = k /\ f_nlinks d0 = 1
  | DNone => True
  end.
Lemma sd_more pre p t : sd pre t -> sd (pre ++ [p]) t.
Proof.
  intros H k e E. specialize (H k e E). destruct (l_dest e); [exact H| |]; destruct H as (x0 & d0 & H1 & H2);
    exists x0, d0; (split; [rewrite in_app_iff; now left|exact H2]).
Qed.
Lemma sd_add pre t o x dest : sd pre t -> sd (pre ++ [(Some x, dest)]) (fst (fst (add_rorp t o x dest))).
Proof.
  intros H. pose proof (sd_more _ (Some x, dest) _ H) as H'.
  unfold add_rorp. destruct (multi x) eqn:M; cbn [negb]; [|exact H']. destruct (tget t (f_key x)); [exact H'|].
  assert (K : forall dk, (match dk with
      | DKey kd => exists d0, dest = Some d0 /\ f_key d0 = kd
      | DNA => exists d0, dest = Some d0 /\ f_nlinks d0 = 1 | DNone => True end) ->
     sd (pre ++ [(Some x, dest)]) (tset t (f_key x) (mk_lentry (f_index x) (f_nlinks x) dk (f_sha1 x)))).
  { intros dk Hdk k e. rewrite tget_tset. destruct (key_eqb (f_key x) k) eqn:E; [|apply H'].
    intros Q. injection Q as <-. cbn [l_dest]. apply key_eqb_eq in E.
    destruct dk; [exact I| |]; destruct Hdk as (d0 & -> & Hd); exists x, d0; (split; [rewrite in_app_iff; right; now left|auto]). }
  destruct dest as [d|]; [|now apply K]. destruct (Z.eqb_spec (f_nlinks d) 1); [apply K; now exists d|].
  assert (KD : exists d0, Some d = Some d0 /\ f_key d0 = f_key d) by now exists d.
  destruct (tget o (f_key d)); [destruct (f_sha1 d)|]; apply K; exact KD.
Qed.
Lemma sd_del pre t x : sd pre t -> sd pre (del_rorp t x).
Proof.
  intros H. unfold del_rorp. destruct (multi x); cbn [negb]; [|assumption]. destruct (tget t (f_key x)) as [e0|] eqn:G; [|assumption].
  destruct (l_remaining e0 =? 1); intros k e.
  - rewrite tget_tdel. destruct (key_eqb (f_key x) k); [discriminate|apply H].
  - rewrite tget_tset. destruct (key_eqb (f_key x) k) eqn:E; [|apply H]. intros Q. injection Q as <-.
    apply key_eqb_eq in E. subst k. exact (H _ _ G).
Qed.
Lemma sd_eq pre t src dest b t' : sd pre t -> rorp_eq t src dest = Some (b, t') -> sd pre t'.
Proof.
  intros H E. destruct (rorp_eq_table _ _ _ _ _ E) as [->|(e & G & ->)]; [assumption|].
  intros k e'. rewrite tget_tset. destruct (key_eqb (f_key src) k) eqn:K; [|apply H]. intros Q. injection Q as <-. exact I.
Qed.
(** leaving [d] as it is is right: neither has other names, or the number of names is as before and
    so is one of the other names seen (or that one had no other names before) *)
Definition rightly_kept (seen : list lpair) (x d : lfile) : Prop :=
  f_reg x = true -> f_reg d = true -> (f_nlinks x = 1 /\ f_nlinks d = 1) \/
  f_nlinks x = f_nlinks d /\
  exists x0 d0, In (Some x0, Some d0) seen /\ multi x0 = true /\ f_key x0 = f_key x /\ (f_key d0 = f_key d \/ f_nlinks d0 = 1).
Lemma sd_decide same pre t src dest w t' : sd pre t -> decide same t src dest = Some (w, t') ->
  sd pre t' /\ (w = Same -> exists x d, src = Some x /\ dest = Some d /\ same x d = true /\ rightly_kept pre x d).
Proof.
  intros H E.
  assert (HC : forall t0, sd pre t0 -> match src with
    | None => Some (Gone, t0)
    | Some x => if is_linked t0 x then option_map (fun i => (LinkTo i, t0)) (get_link_index t0 x) else Some (Fresh, t0)
    end = Some (w, t') -> sd pre t' /\ (w = Same -> exists x d, src = Some x /\ dest = Some d /\ same x d = true /\ rightly_kept pre x d)).
  { intros t0 H0 E0. destruct src as [x|]; [|injection E0 as <- <-; split; [assumption|discriminate]].
    destruct (is_linked t0 x); [|injection E0 as <- <-; split; [assumption|discriminate]].
    unfold get_link_index in E0. destruct (tget t0 (f_key x)); [|discriminate]. cbn in E0. injection E0 as <- <-. split; [assumption|discriminate]. }
  unfold decide in E. destruct src as [x|]; [|destruct dest; now apply (HC t)]. destruct dest as [d|]; [|now apply (HC t)].
  destruct (same x d) eqn:ES; [|now apply (HC t)].
  destruct (rorp_eq t x d) as [[[] t1]|] eqn:Q; [| |discriminate].
  - injection E as <- <-. split; [now apply (sd_eq _ _ _ _ _ _ H Q)|]. intros _. exists x, d. repeat split; auto.
    intros R1 R2. unfold rorp_eq in Q. rewrite R1, R2 in Q. cbn [negb orb] in Q.
    destruct (Z.eqb_spec (f_nlinks x) 1) as [N1|N1]; [destruct (Z.eqb_spec (f_nlinks d) 1) as [N2|N2]; [now left|]|]; cbn [andb] in Q; right.
    all: destruct (negb (is_linked t x) && _); [discriminate|].
    all: destruct (Z.eqb_spec (f_nlinks x) (f_nlinks d)) as [N3|N3]; cbn [negb] in Q; [|discriminate].
    { congruence. }
    split; [exact N3|]. destruct (tget t (f_key x)) as [e|] eqn:G; [|discriminate]. specialize (H _ _ G).
    destruct (l_dest e) as [| |k]; [discriminate| |].
    + destruct H as (x0 & d0 & H1 & H2 & H3 & H4). exists x0, d0. auto.
    + destruct H as (x0 & d0 & H1 & H2 & H3 & H4). injection Q as Q _. apply key_eqb_eq in Q. exists x0, d0. repeat split; auto. left. congruence.
  - apply (HC t1); [now apply (sd_eq _ _ _ _ _ _ H Q)|exact E].
Qed.
(** Whatever the link counts are, a backup or a restore leaves a file as it is only if it compares
    equal and its links are as before. *)
Theorem C24_changed_links_noticed : forall same cache_size l decisions t,
  backup_loop same cache_size [] [] [] l = Some (decisions, t) \/ restore_loop same [] [] l = Some (decisions, t) ->
  forall a p b, l = a ++ p :: b -> nth_error decisions (length a) = Some Same ->
  exists x d, p = (Some x, Some d) /\ may_stay same p /\ rightly_kept (a ++ [p]) x d.
Proof.
  intros same c l ws t H.
  assert (HG : forall l0 pre0 cache t0 o ws t,
     sd pre0 t0 -> backup_loop same c cache t0 o l0 = Some (ws, t) \/ restore_loop same t0 o l0 = Some (ws, t) ->
     forall a p b, l0 = a ++ p :: b -> nth_error ws (length a) = Some Same ->
     exists x d, p = (Some x, Some d) /\ may_stay same p /\ rightly_kept (pre0 ++ a ++ [p]) x d).
  { clear H t ws l. induction l0 as [|[src dest] l0 IH]; intros pre0 cache t0 o ws t HS H a p b EL EN; [destruct a; discriminate|].
    set (pre1 := pre0 ++ [(src, dest)]).
    assert (HD : exists t2 dest1 w t3 ws' cache2 o1, sd pre1 t2 /\ decide same t2 src dest1 = Some (w, t3) /\ ws = w :: ws' /\
       (dest1 = dest \/ exists x d h, src = Some x /\ dest = Some d /\ dest1 = Some (set_sha1 d h)) /\
       exists t3' t4, (sd pre1 t3 -> sd pre1 t3') /\ (backup_loop same c cache2 t3' o1 l0 = Some (ws', t4) \/ restore_loop same t3' o1 l0 = Some (ws', t4))).
    { assert (AR : forall x, src = Some x -> forall t1 o1 dest1, add_rorp t0 o x dest = (t1, o1, dest1) -> sd pre1 t1 /\
         (dest1 = dest \/ exists x d h, src = Some x /\ dest = Some d /\ dest1 = Some (set_sha1 d h))).
      { intros x Ex t1 o1 dest1 EA. pose proof (sd_add pre0 t0 o x dest HS) as Q. rewrite EA in Q. unfold pre1. rewrite Ex. split; [exact Q|].
        destruct (add_rorp_dest t0 o x dest) as [E|(d & h & E1 & E2)]; rewrite EA in *; cbn [snd] in *; [now left|].
        right. exists x, d, h. auto. }
      destruct H as [H|H].
      - cbn [backup_loop] in H.
        assert (EA : exists t1 o1 dest1, pre_process t0 o src dest = (t1, o1, dest1) /\ sd pre1 t1 /\
           (dest1 = dest \/ exists x d h, src = Some x /\ dest = Some d /\ dest1 = Some (set_sha1 d h))).
        { unfold pre_process. destruct src as [x|].
          - destruct (add_rorp t0 o x dest) as [[t1 o1] dest1] eqn:EA. exists t1, o1, dest1. split; [reflexivity|]. now apply (AR x eq_refl t1 o1).
          - destruct dest; do 3 eexists; (split; [reflexivity|]); (split; [now apply sd_more|now left]). }
        destruct EA as (t1 & o1 & dest1 & EA & S1 & D1). rewrite EA in H.
        set (cache1 := cache ++ [(src, dest1)]) in *.
        assert (EX : exists cache2 t2, sd pre1 t2 /\ shorten c cache1 t1 = (cache2, t2)).
        { unfold shorten. destruct cache1 as [|[[y|] dy] rest]; [exists [], t1; now split| |]; destruct (Nat.ltb c _); do 2 eexists; (split; [|reflexivity]); auto.
          cbn [post fst]. now apply sd_del. }
        destruct EX as (cache2 & t2 & S2 & EX). rewrite EX in H.
        destruct (decide same t2 src dest1) as [[w t3]|] eqn:ED; [|discriminate].
        destruct (backup_loop same c cache2 t3 o1 l0) as [[ws' t4]|] eqn:EB; [|discriminate]. injection H as <- <-.
        exists t2, dest1, w, t3, ws', cache2, o1. split; [exact S2|]. split; [exact ED|]. split; [reflexivity|]. split; [exact D1|].
        exists t3, t4. split; [auto|]. now left.
      - cbn [restore_loop] in H.
        assert (EA : exists t1 o1 dest1, (match src with Some x => add_rorp t0 o x dest | None => (t0, o, dest) end) = (t1, o1, dest1) /\ sd pre1 t1 /\
           (dest1 = dest \/ exists x d h, src = Some x /\ dest = Some d /\ dest1 = Some (set_sha1 d h))).
        { destruct src as [x|].
          - destruct (add_rorp t0 o x dest) as [[t1 o1] dest1] eqn:EA. exists t1, o1, dest1. split; [reflexivity|]. now apply (AR x eq_refl t1 o1).
          - do 3 eexists; (split; [reflexivity|]). split; [now apply sd_more|now left]. }
        destruct EA as (t1 & o1 & dest1 & EA & S1 & D1). rewrite EA in H.
        destruct (decide same t1 src dest1) as [[w t3]|] eqn:ED; [|discriminate].
        destruct (restore_loop same (post t3 (src, dest1)) o1 l0) as [[ws' t4]|] eqn:EB; [|discriminate]. injection H as <- <-.
        exists t1, dest1, w, t3, ws', cache, o1. split; [exact S1|]. split; [exact ED|]. split; [reflexivity|]. split; [exact D1|].
        exists (post t3 (src, dest1)), t4. split; [|now right]. destruct src; cbn [post fst]; [apply sd_del|auto]. }
    destruct HD as (t2 & dest1 & w & t3 & ws' & cache2 & o1 & S2 & ED & -> & D1 & t3' & t4 & S3 & H').
    destruct (sd_decide same pre1 t2 src dest1 w t3 S2 ED) as [S3' HL].
    destruct a as [|p0 a].
    - cbn [app] in EL. injection EL as <- <-. cbn [length nth_error] in EN. injection EN as EN.
      destruct (HL EN) as (x & d & -> & E1 & HSame & HK).
      destruct D1 as [D1|(x' & d' & h & E2 & -> & E3)].
      + rewrite <- D1, E1. exists x, d. split; [reflexivity|]. split; [exists x, d, (f_sha1 d); split; [reflexivity|now destruct d]|].
        cbn [app]. unfold pre1 in HK. rewrite <- D1, E1 in HK. exact HK.
      + rewrite E1 in E3. injection E3 as ->. exists x, d'. split; [reflexivity|]. split; [exists x, d', (Some h); split; [reflexivity|exact HSame]|].
        exact HK.
    - cbn [app] in EL. injection EL as <- EL. cbn [length nth_error] in EN.
      destruct (IH pre1 cache2 t3' o1 ws' t4 (S3 S3') H' a p b EL EN) as (x & d & E1 & HM & HK).
      exists x, d. split; [assumption|]. split; [assumption|]. unfold pre1 in HK. rewrite <- app_assoc in HK. exact HK. }
  intros a p b EL EN. apply (HG l [] [] [] [] ws t) with (b := b); auto. intros k e Q. discriminate.
Qed.
(** The last exception is real: [a], a file of its own before, is now another name of [b] (and an old name [c] of
    [b] is gone).  [b] is left as it is, so that in the mirror [a] and [b] are two files. *)
Theorem C24_new_first_name_refuted :
  let f n links k s := mk_lfile [n] true links (k, 1) s in
  let l := [(Some (f (bs "a") 2 5 None), Some (f (bs "a") 1 4 (Some (bs "aa"))));
            (Some (f (bs "b") 2 5 None), Some (f (bs "b") 2 5 (Some (bs "bb"))));
            (None, Some (f (bs "c") 2 5 None))] in
  let compare x d := (f_nlinks x =? 1) || key_eqb (f_key x) (f_key d) in
  consistent (sources l) /\
  exists decisions t, backup_loop compare 10 [] [] [] l = Some (decisions, t) /\
  let after := apply_decisions 7 [([bs "a"], 4%nat); ([bs "b"], 5%nat); ([bs "c"], 5%nat)]
                 (combine [[bs "a"]; [bs "b"]; [bs "c"]] decisions) in
  iget after [bs "a"] = Some 7%nat /\ iget after [bs "b"] = Some 5%nat /\ iget after [bs "c"] = None.
Proof.
  intros f l compare. split; [|do 2 eexists; repeat split; reflexivity]. split.
  - cbn. repeat constructor; cbn [In]; intuition discriminate.
  - intros x Hx. cbn in Hx. intuition (subst; cbn; try lia; try discriminate).
  - intros x y Hx Hy P. cbn in Hx, Hy. intuition (subst; try discriminate; reflexivity).
  - intros x Hx R N. cbn in Hx. intuition (subst; vm_compute; discriminate).
Qed.

(** ** links which did not change are left as they are *)
Definition own (t : table) : Prop := forall k e, tget t k = Some e -> l_dest e = DKey k.
Lemma own_del t x : own t -> own (del_rorp t x).
Proof.
  intros H. unfold del_rorp. destruct (multi x); cbn [negb]; [|assumption]. destruct (tget t (f_key x)) as [e0|] eqn:G; [|assumption].
  destruct (l_remaining e0 =? 1); intros k e.
  - rewrite tget_tdel. destruct (key_eqb (f_key x) k); [discriminate|apply H].
  - rewrite tget_tset. destruct (key_eqb (f_key x) k) eqn:E; [|apply H]. intros Q. injection Q as <-.
    apply key_eqb_eq in E. subst k. exact (H _ _ G).
Qed.
Lemma own_add t o x d : f_key d = f_key x -> f_nlinks d = f_nlinks x -> own t -> own (fst (fst (add_rorp t o x (Some d)))).
Proof.
  intros EK EN H. unfold add_rorp. destruct (multi x) eqn:M; cbn [negb]; [|exact H]. destruct (tget t (f_key x)); [exact H|].
  assert (N1 : (f_nlinks d =? 1) = false) by (unfold multi in M; lia). rewrite N1.
  assert (K : own (tset t (f_key x) (mk_lentry (f_index x) (f_nlinks x) (DKey (f_key d)) (f_sha1 x)))).
  { intros k e. rewrite tget_tset. destruct (key_eqb (f_key x) k) eqn:E; [|apply H]. intros Q. injection Q as <-. apply key_eqb_eq in E. cbn [l_dest]. congruence. }
  destruct (tget o (f_key d)); [destruct (f_sha1 d)|]; exact K.
Qed.
(** the mirror has the file as it is in the source, and the checksum if it has one name or it's the first one *)
Definition as_before (same : lfile -> lfile -> bool) (seen : list lfile) (p : lpair) : Prop :=
  exists x d, p = (Some x, Some d) /\ f_reg d = f_reg x /\ f_nlinks d = f_nlinks x /\ f_key d = f_key x /\
    (forall h, same x (mk_lfile (f_index d) (f_reg d) (f_nlinks d) (f_key d) h) = true) /\
    (find (partner x) seen = None -> f_sha1 d <> None).
Fixpoint all_as_before same (seen : list lfile) (l : list lpair) : Prop :=
  match l with
  | [] => True
  | p :: r => as_before same seen p /\ all_as_before same (seen ++ sources [p]) r
  end.
Lemma unchanged_spec files (CO : consistent files) same cache_size : (1 <= cache_size)%nat -> forall l cache t o pre dels,
  files = pre ++ sources l -> pre = dels ++ sources cache -> inv false pre dels t -> own t -> (length cache <= cache_size)%nat ->
  all_as_before same pre l ->
  exists t', backup_loop same cache_size cache t o l = Some (map (fun _ => Same) l, t').
Proof.
  intros HC. induction l as [|[src dest] l IH]; intros cache t o pre dels EF EP HI HO HL HB.
  - cbn [backup_loop]. eexists. reflexivity.
  - destruct HB as [(x & d & Ep & B1 & B2 & B3 & B4 & B5) HB]. injection Ep as -> ->.
    cbn [backup_loop]. change (pre_process t o (Some x) (Some d)) with (add_rorp t o x (Some d)).
    destruct (add_rorp t o x (Some d)) as [[t1 o1] dest1] eqn:EA.
    assert (EF' : files = (pre ++ [x]) ++ sources l) by (rewrite EF, <- app_assoc; reflexivity).
    assert (HI1 : inv false (pre ++ [x]) dels t1).
    { pose proof (inv_add files CO false _ _ _ _ _ o _ (Some d) EF' EP HI) as Q. now rewrite EA in Q. }
    assert (HO1 : own t1) by (pose proof (own_add t o x d B3 B2 HO) as Q; now rewrite EA in Q).
    assert (D1 : exists h, dest1 = Some (mk_lfile (f_index d) (f_reg d) (f_nlinks d) (f_key d) h) /\ (f_sha1 d <> None -> h <> None)).
    { destruct (add_rorp_dest t o x (Some d)) as [E|(d' & h & E1 & E2)]; rewrite EA in *; cbn [snd] in *.
      - exists (f_sha1 d). split; [rewrite E; now destruct d|auto].
      - injection E1 as <-. exists (Some h). split; [exact E2|discriminate]. }
    destruct D1 as (h & -> & D1). set (d1 := mk_lfile _ _ _ _ h) in *.
    set (cache1 := cache ++ [(Some x, Some d1)]).
    assert (S1 : sources cache1 = sources cache ++ [x]) by (unfold cache1; rewrite sources_app; reflexivity).
    assert (L1 : length cache1 = S (length cache)) by (unfold cache1; rewrite app_length; cbn; lia).
    assert (HX : exists cache2 t2 dels2 q2, shorten cache_size cache1 t1 = (cache2, t2) /\ (length cache2 <= cache_size)%nat /\
      sources cache2 = q2 ++ [x] /\ pre = dels2 ++ q2 /\ inv false (pre ++ [x]) dels2 t2 /\ own t2).
    { unfold shorten. destruct cache1 as [|p rest] eqn:EC; [cbn in L1; lia|]. match goal with |- context [Nat.ltb ?u ?v] => destruct (Nat.ltb_spec u v) as [Hlt|Hge] end.
      - assert (NE : cache <> []) by (intros ->; cbn in *; lia). destruct cache as [|p0 c0]; [congruence|].
        unfold cache1 in EC. cbn [app] in EC. injection EC as -> <-.
        exists (c0 ++ [(Some x, Some d1)]), (post t1 p).
        cbn [sources flat_map app] in EP. fold (sources c0) in EP.
        assert (SX : sources (c0 ++ [(Some x, Some d1)]) = sources c0 ++ [x]) by (rewrite sources_app; reflexivity).
        destruct p as [[y|] dy]; cbn [fst post app] in *.
        + exists (dels ++ [y]), (sources c0). split; [reflexivity|]. split; [cbn in L1; rewrite app_length in *; cbn in *; lia|].
          split; [exact SX|]. split; [rewrite <- app_assoc; exact EP|]. split; [|now apply own_del].
          apply (inv_del files CO false (pre ++ [x]) dels (sources c0 ++ [x]) (sources l)); [exact EF'| |exact HI1].
          rewrite EP. now rewrite <- app_assoc.
        + exists dels, (sources c0). split; [reflexivity|]. split; [cbn in L1; rewrite app_length in *; cbn in *; lia|].
          split; [exact SX|]. split; [exact EP|]. split; [exact HI1|exact HO1].
      - exists (p :: rest), t1, dels, (sources cache). repeat split; auto. }
    destruct HX as (cache2 & t2 & dels2 & q2 & EX & L2 & S2 & P2 & I2 & O2). rewrite EX.
    destruct (inv_linked files CO false _ _ _ _ _ _ EF' P2 I2) as (LK & LF & LM).
    assert (ED : decide same t2 (Some x) (Some d1) = Some (Same, t2)).
    { unfold decide. unfold d1 at 1. rewrite B4.
      assert (RQ : rorp_eq t2 x d1 = Some (true, t2)); [|now rewrite RQ].
      unfold rorp_eq, d1. cbn [f_reg f_nlinks f_sha1 f_key]. rewrite B1, B2, B3.
      destruct (f_reg x) eqn:R; [|reflexivity]. cbn [negb orb]. destruct (Z.eqb_spec (f_nlinks x) 1) as [N1|N1]; [reflexivity|]. cbn [andb].
      rewrite Z.eqb_refl. cbn [negb].
      assert (MX : multi x = true).
      { assert (HX : In x files) by (rewrite EF', !in_app_iff; left; right; now left).
        pose proof (proj1 (co_nonreg _ CO x HX)). unfold multi. rewrite R. cbn [andb]. lia. }
      assert (C : negb (is_linked t2 x) && match h with None => true | Some _ => false end = false).
      { rewrite LK. destruct (find (partner x) pre) as [y|] eqn:F; [reflexivity|]. cbn [negb andb]. specialize (D1 (B5 eq_refl)). now destruct h. }
      rewrite C. destruct (tget t2 (f_key x)) as [e|] eqn:G; [|now apply LM in MX].
      rewrite (O2 _ _ G). now rewrite key_eqb_refl. }
    rewrite ED.
    destruct (IH cache2 t2 o1 (pre ++ [x]) dels2 EF') as (t4 & E4); [rewrite P2, S2; now rewrite app_assoc|exact I2|exact O2|exact L2|exact HB|].
    rewrite E4. exists t4. reflexivity.
Qed.
(** When nothing changed, a backup changes nothing, whatever the cache size. *)
Theorem C24_unchanged_links_kept : forall same cache_size l,
  (1 <= cache_size)%nat -> consistent (sources l) -> all_as_before same [] l ->
  exists t, backup_loop same cache_size [] [] [] l = Some (map (fun _ => Same) l, t).
Proof.
  intros same c l HC CO HB. apply (unchanged_spec (sources l) CO same c HC l [] [] [] [] []); auto.
  - intros k. reflexivity.
  - intros k e Q. discriminate.
  - cbn. lia.
Qed.
(** the effect on the mirror of removing, keeping and writing *)
Theorem C24_gone_is_gone : forall d fresh i r, (forall j w, In (j, w) r -> j <> i) ->
  iget (apply_decisions fresh d ((i, Gone) :: r)) i = None.
Proof.
  intros d fresh i r H. cbn [apply_decisions].
  assert (K : iget (filter (fun jn => negb (idx_eqb (fst jn) i)) d) i = None).
  { induction d as [|[j n] d IH]; [reflexivity|]. cbn [filter fst]. destruct (idx_eqb j i) eqn:E; cbn [negb]; [exact IH|]. cbn [iget]. now rewrite E. }
  assert (G : forall r d fresh, (forall j w, In (j, w) r -> j <> i) -> iget d i = None -> iget (apply_decisions fresh d r) i = None).
  { clear. induction r as [|[j w] r IH]; intros d fresh H K; [exact K|].
    assert (F : forall n, iget ((j, n) :: filter (fun jn => negb (idx_eqb (fst jn) j)) d) i = None).
    { intros n. cbn [iget]. destruct (idx_eqb j i) eqn:E; [apply idx_eqb_eq in E; now apply (H j w (or_introl eq_refl)) in E|].
      clear -K. induction d as [|[a b] d IH]; [reflexivity|]. cbn [iget] in K. destruct (idx_eqb a i) eqn:E; [discriminate|].
      cbn [filter fst]. destruct (negb (idx_eqb a j)); [cbn [iget]; rewrite E|]; auto. }
    assert (F0 : iget (filter (fun jn => negb (idx_eqb (fst jn) j)) d) i = None).
    { pose proof (F O) as Q. cbn [iget] in Q. destruct (idx_eqb j i); [discriminate|exact Q]. }
    assert (H' : forall j0 w0, In (j0, w0) r -> j0 <> i) by (intros; apply (H j0 w0); now right).
    cbn [apply_decisions]. destruct w; try (apply IH; auto; fail).
    match goal with |- context [iget d ?x] => destruct (iget d x) end; apply IH; auto. }
  now apply G.
Qed.
Example C24_unchanged_ex : exists t,
  backup_loop (fun x d => key_eqb (f_key x) (f_key d)) 2 [] [] [] (map (fun x => (Some x, Some x)) ex_links)
    = Some ([Same; Same; Same; Same; Same], t).
Proof.
  apply (C24_unchanged_links_kept _ 2 (map (fun x => (Some x, Some x)) ex_links)); [lia|apply C24_ex|].
  repeat split; (do 2 eexists; split; [reflexivity|]; repeat split; try discriminate; intros h; apply key_eqb_refl).
Qed.

Print Assumptions C24_changed_links_noticed.
Print Assumptions C24_new_first_name_refuted.
Print Assumptions C24_unchanged_links_kept.
Print Assumptions C24_gone_is_gone.
