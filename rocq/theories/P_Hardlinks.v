(** * C24: hard links *)
From Coq Require Import List ZArith Bool Ascii Lia.
From Verif Require Import Base L_Base M_Iter L_Iter M_Hardlinks S_Hardlinks L_Hardlinks.
Import List ListNotations.
Local Open Scope Z_scope.

Lemma sources_app a b : sources (a ++ b) = sources a ++ sources b.
Proof. apply flat_map_app. Qed.
Definition posts (q : list lpair) (t : table) := fold_left post q t.
Lemma posts_dels q t : fold_left post q t = fold_left del_rorp (sources q) t.
Proof.
  revert t. induction q as [|[[x|] d] q IH]; intros t; [reflexivity| |]; cbn [fold_left post fst]; rewrite IH; reflexivity.
Qed.
Definition agrees same (p : lpair) (expected actual : what) : Prop := actual = expected \/ actual = Same /\ may_stay same p.
Inductive all_agree same : list lpair -> list what -> list what -> Prop :=
| AA_nil : all_agree same [] [] []
| AA_cons p l w ws v vs : agrees same p w v -> all_agree same l ws vs -> all_agree same (p :: l) (w :: ws) (v :: vs).

Lemma may_stay_dest same t o x dest : forall d, snd (add_rorp t o x dest) = Some d -> same x d = true -> may_stay same (Some x, dest).
Proof.
  intros d E S. destruct (add_rorp_dest t o x dest) as [D|(d0 & h & D1 & D2)].
  - rewrite D in E. subst dest. exists x, d, (f_sha1 d). split; [reflexivity|]. now destruct d.
  - rewrite D2 in E. injection E as <-. subst dest. exists x, d0, (Some h). split; [reflexivity|exact S].
Qed.

Lemma backup_spec files (CO : consistent files) same cache_size : (1 <= cache_size)%nat -> forall l cache t o pre dels,
  files = pre ++ sources l -> pre = dels ++ sources cache -> inv false pre dels t -> (length cache <= cache_size)%nat ->
  exists ws t', backup_loop same cache_size cache t o l = Some (ws, t') /\ all_agree same l (expected pre l) ws /\ inv false files files t'.
Proof.
  intros HC. induction l as [|[src dest] l IH]; intros cache t o pre dels EF EP HI HL.
  - cbn [backup_loop]. eexists [], _. split; [reflexivity|]. split; [constructor|].
    rewrite posts_dels. cbn [sources flat_map] in EF. rewrite app_nil_r in EF. subst pre.
    now apply (inv_fold files CO false files [] (sources cache) (eq_sym (app_nil_r _)) dels).
  - cbn [backup_loop]. destruct src as [x|].
    + change (pre_process t o (Some x) dest) with (add_rorp t o x dest).
      destruct (add_rorp t o x dest) as [[t1 o1] dest1] eqn:EA.
      assert (EF' : files = (pre ++ [x]) ++ sources l) by (rewrite EF, <- app_assoc; reflexivity).
      assert (HI1 : inv false (pre ++ [x]) dels t1).
      { pose proof (inv_add files CO false _ _ _ _ _ o _ dest EF' EP HI) as Q. now rewrite EA in Q. }
      set (cache1 := cache ++ [(Some x, dest1)]).
      assert (S1 : sources cache1 = sources cache ++ [x]) by (unfold cache1; rewrite sources_app; reflexivity).
      assert (L1 : length cache1 = S (length cache)) by (unfold cache1; rewrite app_length; cbn; lia).
      assert (HX : exists cache2 t2 dels2 q2, shorten cache_size cache1 t1 = (cache2, t2) /\ (length cache2 <= cache_size)%nat /\
        sources cache2 = q2 ++ [x] /\ pre = dels2 ++ q2 /\ inv false (pre ++ [x]) dels2 t2).
      { unfold shorten. destruct cache1 as [|p rest] eqn:EC; [cbn in L1; lia|]. match goal with |- context [Nat.ltb ?u ?v] => destruct (Nat.ltb_spec u v) as [Hlt|Hge] end.
        - assert (NE : cache <> []) by (intros ->; cbn in *; lia). destruct cache as [|p0 c0]; [congruence|].
          unfold cache1 in EC. cbn [app] in EC. injection EC as -> <-.
          exists (c0 ++ [(Some x, dest1)]), (post t1 p). 
          cbn [sources flat_map app] in EP. fold (sources c0) in EP.
          assert (SX : sources (c0 ++ [(Some x, dest1)]) = sources c0 ++ [x]) by (rewrite sources_app; reflexivity).
          destruct p as [[y|] dy]; cbn [fst post app] in *.
          + exists (dels ++ [y]), (sources c0). split; [reflexivity|]. split; [cbn in L1; rewrite app_length in *; cbn in *; lia|].
            split; [exact SX|]. split; [rewrite <- app_assoc; exact EP|].
            apply (inv_del files CO false (pre ++ [x]) dels (sources c0 ++ [x]) (sources l)); [exact EF'| |exact HI1].
            rewrite EP. now rewrite <- app_assoc.
          + exists dels, (sources c0). split; [reflexivity|]. split; [cbn in L1; rewrite app_length in *; cbn in *; lia|].
            split; [exact SX|]. split; [exact EP|exact HI1].
        - exists (p :: rest), t1, dels, (sources cache). repeat split; auto. }
      destruct HX as (cache2 & t2 & dels2 & q2 & EX & L2 & S2 & P2 & I2). rewrite EX.
      destruct (decide_spec files CO same _ _ _ _ _ x dest1 EF' P2 I2) as (w & t3 & ED & I3 & HW). rewrite ED.
      destruct (IH cache2 t3 o1 (pre ++ [x]) dels2 EF') as (ws & t4 & E4 & A4 & I4); [rewrite P2, S2; now rewrite app_assoc|exact I3|exact L2|].
      rewrite E4. exists (w :: ws), t4. split; [reflexivity|]. split; [|exact I4]. cbn [expected]. constructor; [|exact A4].
      destruct HW as [->|[-> (d & Hd & Hs)]]; [now left|right]. split; [reflexivity|].
      apply (may_stay_dest same t o x dest d); [now rewrite EA|exact Hs].
    + set (o1 := match dest with Some d => add_old_rorp o d | None => o end).
      assert (EQ : pre_process t o None dest = (t, o1, dest)) by (destruct dest; reflexivity).
      rewrite EQ.
      assert (EF' : files = pre ++ sources l) by exact EF.
      set (cache1 := cache ++ [(None, dest)]).
      assert (S1 : sources cache1 = sources cache) by (unfold cache1; rewrite sources_app; cbn; apply app_nil_r).
      assert (L1 : length cache1 = S (length cache)) by (unfold cache1; rewrite app_length; cbn; lia).
      assert (HX : exists cache2 t2 dels2, shorten cache_size cache1 t = (cache2, t2) /\ (length cache2 <= cache_size)%nat /\
        pre = dels2 ++ sources cache2 /\ inv false pre dels2 t2).
      { unfold shorten. destruct cache1 as [|p rest] eqn:EC; [cbn in L1; lia|]. match goal with |- context [Nat.ltb ?u ?v] => destruct (Nat.ltb_spec u v) as [Hlt|Hge] end.
        - assert (NE : cache <> []) by (intros ->; cbn in *; lia). destruct cache as [|p0 c0]; [congruence|].
          unfold cache1 in EC. cbn [app] in EC. injection EC as -> <-.
          exists (c0 ++ [(None, dest)]), (post t p).
          cbn [sources flat_map app] in EP. fold (sources c0) in EP.
          assert (SX : sources (c0 ++ [(None, dest)]) = sources c0) by (rewrite sources_app; cbn; apply app_nil_r).
          destruct p as [[y|] dy]; cbn [fst post app] in *.
          + exists (dels ++ [y]). split; [reflexivity|]. split; [cbn in L1; rewrite app_length in *; cbn in *; lia|].
            rewrite SX. split; [rewrite <- app_assoc; exact EP|].
            now apply (inv_del files CO false pre dels (sources c0) (sources l)).
          + exists dels. split; [reflexivity|]. split; [cbn in L1; rewrite app_length in *; cbn in *; lia|]. rewrite SX. now split.
        - exists (p :: rest), t, dels. repeat split; auto. rewrite S1. exact EP. }
      destruct HX as (cache2 & t2 & dels2 & EX & L2 & P2 & I2). rewrite EX.
      assert (ED : decide same t2 None dest = Some (Gone, t2)) by (destruct dest; reflexivity). rewrite ED.
      destruct (IH cache2 t2 o1 pre dels2 EF' P2 I2 L2) as (ws & t4 & E4 & A4 & I4). rewrite E4.
      exists (Gone :: ws), t4. split; [reflexivity|]. split; [|exact I4]. cbn [expected]. constructor; [now left|exact A4].
Qed.

(** During a backup, whatever the size of the cache, every source file which isn't left as it is is written if it
    is the first name of its file, and linked to the first name otherwise; no error occurs.
    [same] is any comparison of descriptions. *)
Theorem C24_backup_links : forall same cache_size l,
  (1 <= cache_size)%nat -> consistent (sources l) ->
  exists decisions t, backup_loop same cache_size [] [] [] l = Some (decisions, t) /\
    all_agree same l (expected [] l) decisions.
Proof.
  intros same c l HC CO. destruct (backup_spec (sources l) CO same c HC l [] [] [] [] []) as (ws & t & E & A & _); auto.
  - intros k. reflexivity.
  - cbn. lia.
  - now exists ws, t.
Qed.
Lemma all_in_forget hdd files t : consistent files -> inv hdd files files t ->
  (forall x, In x files -> multi x = true -> Z.of_nat (length (filter (partner x) files)) = f_nlinks x) ->
  forall k, tget t k = None.
Proof.
  intros CO I H k. specialize (I k). destruct (mem k files) as [|x r] eqn:M; [exact I|].
  assert (Hx : In x (mem k files)) by (rewrite M; now left). apply mem_in in Hx as (H1 & H2 & H3).
  specialize (H x H1 H2). rewrite (filter_ext (partner x) (isk k)) in H by (intros y; rewrite partner_isk by assumption; now rewrite H3).
  fold (mem k files) in H. rewrite M in H. apply Z.eqb_eq in H. now rewrite H in I.
Qed.
(** When all names of each file have been seen, nothing is remembered. *)
Theorem C24_nothing_left : forall same cache_size l decisions t,
  (1 <= cache_size)%nat -> consistent (sources l) ->
  (forall x, In x (sources l) -> multi x = true -> Z.of_nat (length (filter (partner x) (sources l))) = f_nlinks x) ->
  backup_loop same cache_size [] [] [] l = Some (decisions, t) -> forall k, tget t k = None.
Proof.
  intros same c l ws t HC CO H E. destruct (backup_spec (sources l) CO same c HC l [] [] [] [] []) as (ws' & t' & E' & _ & I); auto.
  - intros k. reflexivity.
  - cbn. lia.
  - rewrite E in E'. injection E' as <- <-. now apply (all_in_forget false (sources l)).
Qed.

Lemma restore_spec files (CO : consistent files) same : forall l t o pre,
  files = pre ++ sources l -> inv false pre pre t ->
  exists ws t', restore_loop same t o l = Some (ws, t') /\ all_agree same l (expected pre l) ws /\ inv false files files t'.
Proof.
  induction l as [|[src dest] l IH]; intros t o pre EF HI.
  - cbn [restore_loop]. eexists [], _. split; [reflexivity|]. split; [constructor|].
    cbn [sources flat_map] in EF. rewrite app_nil_r in EF. now subst pre.
  - cbn [restore_loop]. destruct src as [x|].
    + destruct (add_rorp t o x dest) as [[t1 o1] dest1] eqn:EA.
      assert (EF' : files = (pre ++ [x]) ++ sources l) by (rewrite EF, <- app_assoc; reflexivity).
      assert (HI1 : inv false (pre ++ [x]) pre t1).
      { pose proof (inv_add files CO false _ _ [] _ _ o _ dest EF' (eq_sym (app_nil_r _)) HI) as Q. now rewrite EA in Q. }
      destruct (decide_spec files CO same _ _ [] _ _ x dest1 EF' (eq_sym (app_nil_r _)) HI1) as (w & t3 & ED & I3 & HW). rewrite ED.
      destruct (IH (post t3 (Some x, dest1)) o1 (pre ++ [x]) EF') as (ws & t4 & E4 & A4 & I4).
      { cbn [post fst]. now apply (inv_del files CO false (pre ++ [x]) pre [] (sources l)). }
      rewrite E4. exists (w :: ws), t4. split; [reflexivity|]. split; [|exact I4]. cbn [expected]. constructor; [|exact A4].
      destruct HW as [->|[-> (d & Hd & Hs)]]; [now left|right]. split; [reflexivity|].
      apply (may_stay_dest same t o x dest d); [now rewrite EA|exact Hs].
    + assert (ED : decide same t None dest = Some (Gone, t)) by (destruct dest; reflexivity). rewrite ED. cbn [post fst].
      destruct (IH t o pre EF HI) as (ws & t4 & E4 & A4 & I4). rewrite E4.
      exists (Gone :: ws), t4. split; [reflexivity|]. split; [|exact I4]. cbn [expected]. constructor; [now left|exact A4].
Qed.
(** The same holds for a restore. *)
Theorem C24_restore_links : forall same l, consistent (sources l) ->
  exists decisions t, restore_loop same [] [] l = Some (decisions, t) /\ all_agree same l (expected [] l) decisions.
Proof.
  intros same l CO. destruct (restore_spec (sources l) CO same l [] [] []) as (ws & t & E & A & _); auto.
  - intros k. reflexivity.
  - now exists ws, t.
Qed.

(** Restored to an empty directory, two names denote one file exactly if they did when backed up. *)
Lemma iget_filter d i j : iget (filter (fun jn => negb (idx_eqb (fst jn) i)) d) j = if idx_eqb i j then None else iget d j.
Proof.
  induction d as [|[a n] d IH]; cbn [filter iget fst]; [now destruct (idx_eqb i j)|].
  destruct (idx_eqb a i) eqn:E; cbn [negb].
  - rewrite IH. apply idx_eqb_eq in E. subst a. now destruct (idx_eqb i j).
  - cbn [iget]. rewrite IH. destruct (idx_eqb a j) eqn:E2; [|reflexivity]. apply idx_eqb_eq in E2. subst j.
    destruct (idx_eqb i a) eqn:E3; [|reflexivity]. apply idx_eqb_eq in E3. subst i.
    assert (idx_eqb a a = true) by (now apply idx_eqb_eq). congruence.
Qed.
Definition good_inodes (pre : list lfile) (fresh : nat) (d : inodes) : Prop :=
  (forall x, In x pre -> exists n, iget d (f_index x) = Some n /\ (n < fresh)%nat) /\
  (forall x y, In x pre -> In y pre -> (iget d (f_index x) = iget d (f_index y) <-> x = y \/ partner x y = true)).
Lemma partner_sym x y : partner x y = partner y x.
Proof.
  unfold partner. rewrite (Z.eqb_sym (fst (f_key x))), (Z.eqb_sym (snd (f_key x))).
  destruct (f_reg x), (f_reg y), (2 <=? f_nlinks x), (2 <=? f_nlinks y); reflexivity.
Qed.
Lemma partner_trans x y z : partner x y = true -> partner y z = true -> partner x z = true.
Proof.
  unfold partner. rewrite !andb_true_iff, !Z.eqb_eq. intros (((((H1 & H2) & H3) & H4) & H5) & H6) (((((G1 & G2) & G3) & G4) & G5) & G6).
  repeat split; auto; congruence.
Qed.
Lemma apply_spec files : NoDup (map f_index files) -> forall l pre fresh d,
  files = pre ++ l -> good_inodes pre fresh d ->
  exists fresh', good_inodes files fresh' (apply_decisions fresh d (combine (map f_index l) (expected pre (map (fun x => (Some x, None)) l)))).
Proof.
  intros ND. induction l as [|x l IH]; intros pre fresh d EF G.
  - cbn. exists fresh. rewrite app_nil_r in EF. now subst.
  - cbn [map expected combine apply_decisions].
    assert (EF' : files = (pre ++ [x]) ++ l) by (rewrite EF, <- app_assoc; reflexivity).
    assert (NX : forall y, In y pre -> idx_eqb (f_index x) (f_index y) = false).
    { intros y Hy. destruct (idx_eqb (f_index x) (f_index y)) eqn:E; [|reflexivity]. exfalso. apply idx_eqb_eq in E.
      rewrite EF, map_app in ND. cbn [map] in ND. apply NoDup_remove_2 in ND. apply ND. rewrite in_app_iff. left. rewrite E. now apply in_map. }
    assert (RX : idx_eqb (f_index x) (f_index x) = true) by (now apply idx_eqb_eq).
    destruct G as [G1 G2].
    assert (HO : forall n y, In y pre -> iget ((f_index x, n) :: filter (fun jn => negb (idx_eqb (fst jn) (f_index x))) d) (f_index y) = iget d (f_index y)).
    { intros n y Hy. cbn [iget]. rewrite (NX y Hy), iget_filter, (NX y Hy). reflexivity. }
    assert (HX : forall n, iget ((f_index x, n) :: filter (fun jn => negb (idx_eqb (fst jn) (f_index x))) d) (f_index x) = Some n).
    { intros n. cbn [iget]. now rewrite RX. }
    assert (NE : forall y, In y pre -> x <> y).
    { intros y Hy ->. specialize (NX y Hy). congruence. }
    destruct (find (partner x) pre) as [y|] eqn:FY.
    + apply find_some in FY as [Hy Py]. destruct (G1 y Hy) as (n & En & Ln). rewrite En.
      apply (IH (pre ++ [x]) fresh); [exact EF'|]. split.
      * intros z Hz. apply in_app_iff in Hz as [Hz|[<-|[]]]; [rewrite HO by assumption; now apply G1|]. exists n. now rewrite HX.
      * assert (HXZ : forall z, In z pre -> (iget d (f_index z) = Some n <-> partner x z = true)).
        { intros z Hz. rewrite <- En. rewrite (G2 z y Hz Hy). split.
          - intros [-> | P]; [exact Py|]. apply partner_trans with y; [exact Py|now rewrite partner_sym].
          - intros P. right. apply partner_trans with x; [now rewrite partner_sym|exact Py]. }
        intros a b Ha Hb. apply in_app_iff in Ha as [Ha|[<-|[]]], Hb as [Hb|[<-|[]]].
        -- rewrite !HO by assumption. now apply G2.
        -- rewrite HO, HX by assumption. rewrite (HXZ a Ha). split; [intros P; right; now rewrite partner_sym|].
           intros [->|P]; [now elim (NE _ Ha)|now rewrite partner_sym].
        -- rewrite (HO n b), HX by assumption. split.
           ++ intros Q. right. apply HXZ; [assumption|now symmetry].
           ++ intros [E|P]; [now elim (NE _ Hb)|]. symmetry. now apply HXZ.
        -- split; [now left|reflexivity].
    + apply (IH (pre ++ [x]) (S fresh)); [exact EF'|]. split.
      * intros z Hz. apply in_app_iff in Hz as [Hz|[<-|[]]].
        -- rewrite HO by assumption. destruct (G1 z Hz) as (m & Em & Lm). exists m. split; [assumption|lia].
        -- exists fresh. rewrite HX. split; [reflexivity|lia].
      * assert (HP : forall z, In z pre -> partner x z = false) by (intros z Hz; exact (find_none _ _ FY z Hz)).
        assert (HN : forall z, In z pre -> iget d (f_index z) <> Some fresh).
        { intros z Hz E. destruct (G1 z Hz) as (m & Em & Lm). rewrite E in Em. injection Em as <-. lia. }
        intros a b Ha Hb. apply in_app_iff in Ha as [Ha|[<-|[]]], Hb as [Hb|[<-|[]]].
        -- rewrite !HO by assumption. now apply G2.
        -- rewrite HO, HX by assumption. split; [intros Q; now elim (HN a Ha)|]. intros [->|P]; [now elim (NE _ Ha)|].
           rewrite partner_sym, HP in P by assumption. discriminate.
        -- rewrite (HO fresh b), HX by assumption. split; [intros Q; symmetry in Q; now elim (HN b Hb)|].
           intros [E|P]; [now elim (NE _ Hb)|]. rewrite HP in P by assumption. discriminate.
        -- split; [now left|reflexivity].
Qed.
Theorem C24_restored_tree : forall same files decisions t,
  consistent files ->
  restore_loop same [] [] (map (fun x => (Some x, None)) files) = Some (decisions, t) ->
  let dir := apply_decisions 0 [] (combine (map f_index files) decisions) in
  forall x y, In x files -> In y files ->
  iget dir (f_index x) <> None /\
  (iget dir (f_index x) = iget dir (f_index y) <-> x = y \/ partner x y = true).
Proof.
  intros same files ws t CO E dir x y Hx Hy.
  assert (SF : sources (map (fun x => (Some x, None)) files) = files).
  { clear. induction files as [|a l IH]; [reflexivity|]. cbn [map sources flat_map fst app]. f_equal. exact IH. }
  assert (CO' : consistent (sources (map (fun x => (Some x, None)) files))) by (now rewrite SF).
  destruct (C24_restore_links same _ CO') as (ws' & t' & E' & A). rewrite E in E'. injection E' as <- <-.
  assert (EW : ws = expected [] (map (fun x => (Some x, None)) files)).
  { clear -A. revert ws A. generalize (@nil lfile) as pre. induction files as [|a l IH]; intros pre ws A; inversion A as [|p l' w wl v vl H1 H2]; subst; [reflexivity|].
    cbn [map expected]. f_equal; [|now apply IH]. destruct H1 as [->|[_ (u & d & h & Q & _)]]; [reflexivity|discriminate]. }
  assert (G0 : good_inodes [] 0 []) by (split; [intros ? []|intros ? ? []]).
  destruct (apply_spec files (co_paths _ CO) files [] 0%nat [] eq_refl G0) as (fr & G1 & G2).
  rewrite <- EW in G1, G2. fold dir in G1, G2. split; [|now apply G2].
  destruct (G1 x Hx) as (n & -> & _). discriminate.
Qed.

(** Verification: every name of a file is checked against the checksum recorded with its first name. *)
Lemma hashes_spec files (CO : consistent files) : forall l t pre, files = pre ++ l -> inv true pre pre t ->
  hashes t l = map (fun x => match find (partner x) files with Some y => f_sha1 y | None => f_sha1 x end) l.
Proof.
  induction l as [|x l IH]; intros t pre EF HI; [reflexivity|]. cbn [hashes map].
  assert (EF' : files = (pre ++ [x]) ++ l) by (rewrite EF, <- app_assoc; reflexivity).
  unfold get_hash. destruct (add_rorp t [] x None) as [[t1 o1] d1] eqn:EA.
  assert (HI1 : inv true (pre ++ [x]) pre t1).
  { pose proof (inv_add files CO true _ _ [] _ _ [] _ None EF' (eq_sym (app_nil_r _)) HI) as Q. now rewrite EA in Q. }
  destruct (inv_linked files CO true _ _ [] _ _ _ EF' (eq_sym (app_nil_r _)) HI1) as (L & F & _).
  f_equal.
  - rewrite L. assert (HFd : find (partner x) files = match find (partner x) pre with Some y => Some y | None => find (partner x) (x :: l) end).
    { rewrite EF. clear. induction pre as [|y pre IH]; [reflexivity|]. cbn [app find]. destruct (partner x y); [reflexivity|exact IH]. }
    rewrite HFd. destruct (find (partner x) pre) as [y|] eqn:FY.
    + destruct (F y eq_refl) as (e & G & _ & D). rewrite G. now apply D.
    + destruct (multi x) eqn:M; [|now rewrite find_not_multi].
      cbn [find]. assert (P : partner x x = true) by (rewrite partner_isk by assumption; unfold isk; now rewrite M, key_eqb_refl).
      now rewrite P.
  - apply (IH _ (pre ++ [x]) EF'). now apply (inv_del files CO true (pre ++ [x]) pre [] l).
Qed.
Theorem C24_first_checksum_for_all : forall files, consistent files ->
  hashes [] files = map (fun x => match find (partner x) files with Some y => f_sha1 y | None => f_sha1 x end) files.
Proof. intros files CO. apply (hashes_spec files CO files [] []); [reflexivity|]. intros k. reflexivity. Qed.

(** Even if link counts are wrong, a file is only ever linked to an earlier name of the same
    inode. *)
Lemma sound_nil : sound [] [].
Proof. intros k e H. discriminate. Qed.
Lemma sound_posts pre q t : sound pre t -> sound pre (fold_left post q t).
Proof. revert t. induction q as [|[[x|] d] q IH]; intros t H; [exact H| |]; cbn [fold_left post fst]; apply IH; [now apply sound_del|assumption]. Qed.
Theorem C24_strangers_never_linked : forall same cache_size l decisions t,
  (forall x, In x (sources l) -> f_reg x = false -> f_nlinks x <= 1) ->
  backup_loop same cache_size [] [] [] l = Some (decisions, t) \/ restore_loop same [] [] l = Some (decisions, t) ->
  forall a p b i, l = a ++ p :: b -> nth_error decisions (length a) = Some (LinkTo i) ->
  exists x y, fst p = Some x /\ In y (sources a) /\ partner x y = true /\ i = f_index y.
Proof.
  intros same c l ws t HR H.
  assert (HF : forall pre src x y, (forall z, In z (sources l) -> f_reg z = false -> f_nlinks z <= 1) -> In x (sources l) -> src = Some x -> 1 < f_nlinks x ->
     In y (pre ++ [x]) -> multi y = true -> f_key y = f_key x -> f_index y <> f_index x -> In y pre /\ partner x y = true).
  { clear. intros pre src x y HR Hx -> N Hy M K D. apply in_app_iff in Hy as [Hy|[<-|[]]]; [|congruence]. split; [assumption|].
    assert (MX : multi x = true). { unfold multi. destruct (f_reg x) eqn:R; [cbn [andb]; lia|]. specialize (HR x Hx R). lia. }
    rewrite partner_isk by assumption. unfold isk. rewrite M. cbn [andb]. now apply key_eqb_eq. }
  assert (HG : forall pre0 l0, sources l = pre0 ++ sources l0 -> forall cache t0 o ws t,
     sound pre0 t0 -> backup_loop same c cache t0 o l0 = Some (ws, t) \/ restore_loop same t0 o l0 = Some (ws, t) ->
     forall a p b i, l0 = a ++ p :: b -> nth_error ws (length a) = Some (LinkTo i) ->
     exists x y, fst p = Some x /\ In y (pre0 ++ sources a) /\ partner x y = true /\ i = f_index y).
  { clear H t ws. intros pre0 l0. revert pre0. induction l0 as [|[src dest] l0 IH]; intros pre0 ES cache t0 o ws t HS H a p b i EL EN; [destruct a; discriminate|].
    set (pre1 := match src with Some x => pre0 ++ [x] | None => pre0 end).
    assert (ES1 : sources l = pre1 ++ sources l0).
    { rewrite ES. unfold pre1. destruct src; [rewrite <- app_assoc|]; reflexivity. }
    assert (HD : exists t2 dest1 w t3 ws' cache2 o1, sound pre1 t2 /\ decide same t2 src dest1 = Some (w, t3) /\ ws = w :: ws' /\
       exists t3' t4, (sound pre1 t3 -> sound pre1 t3') /\ (backup_loop same c cache2 t3' o1 l0 = Some (ws', t4) \/ restore_loop same t3' o1 l0 = Some (ws', t4))).
    { destruct H as [H|H].
      - cbn [backup_loop] in H.
        assert (EA : exists t1 o1 dest1, sound pre1 t1 /\ pre_process t0 o src dest = (t1, o1, dest1)).
        { unfold pre_process. destruct src as [x|]; [|destruct dest; do 3 eexists; (split; [|reflexivity]); exact HS].
          destruct (add_rorp t0 o x dest) as [[t1 o1] dest1] eqn:EA. exists t1, o1, dest1. split; [|reflexivity].
          pose proof (sound_add pre0 t0 o x dest HS) as Q. now rewrite EA in Q. }
        destruct EA as (t1 & o1 & dest1 & S1 & EA). rewrite EA in H.
        set (cache1 := cache ++ [(src, dest1)]) in *.
        assert (EX : exists cache2 t2, sound pre1 t2 /\ shorten c cache1 t1 = (cache2, t2)).
        { unfold shorten. destruct cache1 as [|[[y|] dy] rest]; [exists [], t1; now split| |]; destruct (Nat.ltb c _); do 2 eexists; (split; [|reflexivity]); auto.
          cbn [post fst]. now apply sound_del. }
        destruct EX as (cache2 & t2 & S2 & EX). rewrite EX in H.
        destruct (decide same t2 src dest1) as [[w t3]|] eqn:ED; [|discriminate].
        destruct (backup_loop same c cache2 t3 o1 l0) as [[ws' t4]|] eqn:EB; [|discriminate]. injection H as <- <-.
        exists t2, dest1, w, t3, ws', cache2, o1. split; [exact S2|]. split; [exact ED|]. split; [reflexivity|].
        exists t3, t4. split; [auto|]. now left.
      - cbn [restore_loop] in H.
        assert (EA : exists t1 o1 dest1, sound pre1 t1 /\ (match src with Some x => add_rorp t0 o x dest | None => (t0, o, dest) end) = (t1, o1, dest1)).
        { destruct src as [x|]; [|do 3 eexists; (split; [|reflexivity]); exact HS].
          destruct (add_rorp t0 o x dest) as [[t1 o1] dest1] eqn:EA. exists t1, o1, dest1. split; [|reflexivity].
          pose proof (sound_add pre0 t0 o x dest HS) as Q. now rewrite EA in Q. }
        destruct EA as (t1 & o1 & dest1 & S1 & EA). rewrite EA in H.
        destruct (decide same t1 src dest1) as [[w t3]|] eqn:ED; [|discriminate].
        destruct (restore_loop same (post t3 (src, dest1)) o1 l0) as [[ws' t4]|] eqn:EB; [|discriminate]. injection H as <- <-.
        exists t1, dest1, w, t3, ws', cache, o1. split; [exact S1|]. split; [exact ED|]. split; [reflexivity|].
        exists (post t3 (src, dest1)), t4. split; [|now right]. destruct src; cbn [post fst]; [apply sound_del|auto]. }
    destruct HD as (t2 & dest1 & w & t3 & ws' & cache2 & o1 & S2 & ED & -> & t3' & t4 & S3 & H').
    destruct (sound_decide same pre1 t2 src dest1 w t3 S2 ED) as [S3' HL].
    destruct a as [|p0 a].
    - cbn [app] in EL. injection EL as <- <-. cbn [length nth_error] in EN. injection EN as EN.
      destruct (HL i EN) as (x & y & -> & N & Hy & M & K & -> & D). cbn [fst].
      assert (Hx : In x (sources l)) by (rewrite ES1, in_app_iff; left; unfold pre1; rewrite in_app_iff; right; now left).
      destruct (HF pre0 (Some x) x y HR Hx eq_refl N Hy M K D) as [Hy' P].
      exists x, y. cbn [sources flat_map]. rewrite app_nil_r. auto.
    - cbn [app] in EL. injection EL as <- EL. cbn [length nth_error] in EN.
      destruct (IH pre1 ES1 cache2 t3' o1 ws' t4 (S3 S3') H' a p b i EL EN) as (x & y & E1 & Hy & P & E2).
      exists x, y. split; [assumption|]. split; [|auto]. revert Hy. unfold pre1. cbn [sources flat_map fst]. fold (sources a).
      destruct src; rewrite !in_app_iff; cbn [In]; tauto. }
  intros a p b i EL EN. apply (HG [] l eq_refl [] [] [] ws t sound_nil H a p b i EL EN).
Qed.

(** If a link is added while the backup runs, the backup can fail: the third name of an
    inode counted two links. *)
Theorem C24_link_added_meanwhile_refuted :
  let f n links s := mk_lfile [n] true links (1, 1) s in
  let old n := Some (f n 3 (Some (bs "aa"))) in
  backup_loop (fun _ _ => true) 2 [] [] []
    [(Some (f (bs "a") 2 None), None); (Some (f (bs "b") 2 None), None); (Some (mk_lfile [bs "c"] true 1 (9, 1) None), None);
     (Some (f (bs "d") 3 None), old (bs "d"))] = None.
Proof. reflexivity. Qed.
(** Restoring over an existing, identical tree breaks its links: the first name is written anew (its checksum
    isn't known), the second one is left as it is. *)
Theorem C24_restore_over_existing_refuted :
  let f n s := mk_lfile [n] true 2 (1, 1) s in
  let mirror := [f (bs "a") (Some (bs "aa")); f (bs "b") None] in
  let target := [f (bs "a") None; f (bs "b") None] in
  let before := [([bs "a"], 0%nat); ([bs "b"], 0%nat)] in
  exists decisions t,
  restore_loop (fun _ _ => true) [] [] (combine (map Some mirror) (map Some target)) = Some (decisions, t) /\
  decisions = [Fresh; Same] /\
  let after := apply_decisions 1 before (combine (map f_index mirror) decisions) in
  iget before [bs "a"] = iget before [bs "b"] /\ iget after [bs "a"] <> iget after [bs "b"].
Proof. do 2 eexists. repeat split. discriminate. Qed.

(** ** example *)
Definition ex_links : list lfile :=
  let f n links k s := mk_lfile [n] true links (k, 1) s in
  [f (bs "a") 2 5 (Some (bs "11")); f (bs "b") 1 6 (Some (bs "22")); f (bs "c") 3 7 (Some (bs "33")); f (bs "d") 2 5 None; f (bs "e") 3 7 None].
Example C24_ex : consistent ex_links /\
  backup_loop (fun _ _ => false) 1 [] [] [] (map (fun x => (Some x, None)) ex_links)
    = Some ([Fresh; Fresh; Fresh; LinkTo [bs "a"]; LinkTo [bs "c"]], [((7, 1), mk_lentry [bs "c"] 1 DNone (Some (bs "33")))]) /\
  hashes [] ex_links = [Some (bs "11"); Some (bs "22"); Some (bs "33"); Some (bs "11"); Some (bs "33")].
Proof.
  split; [|split; reflexivity]. split.
  - cbn [map ex_links f_index]. repeat constructor; cbn [In]; intuition discriminate.
  - intros x Hx. cbn [In ex_links] in Hx. intuition (subst; cbn; try lia; try discriminate).
  - intros x y Hx Hy P. cbn [In ex_links] in Hx, Hy. intuition (subst; try discriminate; reflexivity).
  - intros x Hx R N. cbn [In ex_links] in Hx. intuition (subst; vm_compute; discriminate).
Qed.

Print Assumptions C24_backup_links.
Print Assumptions C24_nothing_left.
Print Assumptions C24_restore_links.
Print Assumptions C24_restored_tree.
Print Assumptions C24_first_checksum_for_all.
Print Assumptions C24_strangers_never_linked.
Print Assumptions C24_link_added_meanwhile_refuted.
Print Assumptions C24_restore_over_existing_refuted.
