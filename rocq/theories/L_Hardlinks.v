From Coq Require Import List ZArith Bool Ascii Lia.
From Verif Require Import Base L_Base M_Iter L_Iter M_Hardlinks S_Hardlinks.
Import List ListNotations.
Local Open Scope Z_scope.

Lemma key_eqb_eq a b : key_eqb a b = true <-> a = b.
Proof.
  unfold key_eqb. rewrite andb_true_iff, !Z.eqb_eq. destruct a, b; cbn. split; [intros []; congruence|]. intros E; now injection E.
Qed.
Lemma key_eqb_refl a : key_eqb a a = true. Proof. now apply key_eqb_eq. Qed.
Lemma tget_tdel {V} (t : list ((Z * Z) * V)) k k' : tget (tdel t k) k' = if key_eqb k k' then None else tget t k'.
Proof.
  induction t as [|[a v] t IH]; cbn [tget tdel]; [now destruct (key_eqb k k')|].
  destruct (key_eqb a k) eqn:E1.
  - rewrite IH. apply key_eqb_eq in E1. subst a. destruct (key_eqb k k') eqn:E2; [reflexivity|]. reflexivity.
  - cbn [tget]. rewrite IH. destruct (key_eqb a k') eqn:E3; [|reflexivity]. destruct (key_eqb k k') eqn:E2; [|reflexivity].
    apply key_eqb_eq in E2, E3. subst. rewrite key_eqb_refl in E1. discriminate.
Qed.
Lemma tget_tset {V} (t : list ((Z * Z) * V)) k v k' : tget (tset t k v) k' = if key_eqb k k' then Some v else tget t k'.
Proof. unfold tset. cbn [tget]. rewrite tget_tdel. now destruct (key_eqb k k'). Qed.

Definition isk (k : Z * Z) (x : lfile) : bool := multi x && key_eqb (f_key x) k.
Lemma partner_isk x y : multi x = true -> partner x y = isk (f_key x) y.
Proof.
  unfold partner, isk, multi, key_eqb. intros H. apply andb_true_iff in H as [H1 H2]. rewrite H1, H2. cbn [andb].
  destruct (f_reg y); cbn [andb]; [|reflexivity]. destruct (2 <=? f_nlinks y); cbn [andb]; [|reflexivity].
  now rewrite (Z.eqb_sym (fst (f_key x))), (Z.eqb_sym (snd (f_key x))).
Qed.
Lemma partner_multi x y : partner x y = true -> multi x = true /\ multi y = true /\ f_key x = f_key y.
Proof.
  unfold partner, multi. rewrite !andb_true_iff, !Z.eqb_eq. intros (((((H1 & H2) & H3) & H4) & H5) & H6).
  repeat split; auto. destruct (f_key x), (f_key y); cbn in *; congruence.
Qed.
Lemma partner_not_multi x y : multi x = false -> partner x y = false.
Proof. intros H. destruct (partner x y) eqn:E; [|reflexivity]. apply partner_multi in E as (E & _). congruence. Qed.
Definition mem (k : Z * Z) (l : list lfile) : list lfile := filter (isk k) l.
Lemma mem_app k a b : mem k (a ++ b) = mem k a ++ mem k b.
Proof. apply filter_app. Qed.
Lemma mem_in k l x : In x (mem k l) <-> In x l /\ multi x = true /\ f_key x = k.
Proof. unfold mem, isk. now rewrite filter_In, andb_true_iff, key_eqb_eq. Qed.
Lemma find_mem x l : multi x = true -> find (partner x) l = hd_error (mem (f_key x) l).
Proof.
  intros H. induction l as [|y l IH]; [reflexivity|]. cbn [find mem filter]. rewrite partner_isk by assumption.
  destruct (isk (f_key x) y); [reflexivity|exact IH].
Qed.
Lemma find_not_multi x l : multi x = false -> find (partner x) l = None.
Proof. intros H. induction l as [|y l IH]; [reflexivity|]. cbn [find]. now rewrite partner_not_multi. Qed.

(** ** the tables are sound, whatever the link counts *)
Definition sound (pre : list lfile) (t : table) : Prop :=
  forall k e, tget t k = Some e -> exists y, In y pre /\ multi y = true /\ f_key y = k /\ l_index e = f_index y.
Lemma sound_more pre x t : sound pre t -> sound (pre ++ [x]) t.
Proof. intros H k e E. destruct (H k e E) as (y & Hy & R). exists y. split; [rewrite in_app_iff; now left|exact R]. Qed.
Lemma add_rorp_table t o x dest : exists dk, fst (fst (add_rorp t o x dest)) =
  if multi x then match tget t (f_key x) with Some _ => t | None => tset t (f_key x) (mk_lentry (f_index x) (f_nlinks x) dk (f_sha1 x)) end else t.
Proof.
  unfold add_rorp. destruct (multi x); cbn [negb]; [|now exists DNone]. destruct (tget t (f_key x)); [now exists DNone|].
  destruct dest as [d|]; [|now eexists]. destruct (f_nlinks d =? 1); [now eexists|].
  destruct (tget o (f_key d)); [destruct (f_sha1 d)|]; now eexists.
Qed.
Lemma add_rorp_dest t o x dest : snd (add_rorp t o x dest) = dest \/
  exists d h, dest = Some d /\ snd (add_rorp t o x dest) = Some (set_sha1 d h).
Proof.
  unfold add_rorp. destruct (multi x); cbn [negb]; [|now left]. destruct (tget t (f_key x)); [now left|].
  destruct dest as [d|]; [|now left]. destruct (f_nlinks d =? 1); [now left|].
  destruct (tget o (f_key d)) as [h|]; [destruct (f_sha1 d)|]; [now left| |now left]. right. now exists d, h.
Qed.
Lemma sound_add pre t o x dest : sound pre t -> sound (pre ++ [x]) (fst (fst (add_rorp t o x dest))).
Proof.
  intros H. destruct (add_rorp_table t o x dest) as (dk & ->). destruct (multi x) eqn:M; [|now apply sound_more].
  destruct (tget t (f_key x)); [now apply sound_more|]. intros k e. rewrite tget_tset.
  destruct (key_eqb (f_key x) k) eqn:E; [|now apply sound_more].
  intros Q. injection Q as <-. exists x. apply key_eqb_eq in E. rewrite in_app_iff. cbn. auto.
Qed.
Lemma sound_del pre t x : sound pre t -> sound pre (del_rorp t x).
Proof.
  intros H. unfold del_rorp. destruct (multi x); cbn [negb]; [|assumption]. destruct (tget t (f_key x)) as [e0|] eqn:G; [|assumption].
  destruct (l_remaining e0 =? 1); intros k e.
  - rewrite tget_tdel. destruct (key_eqb (f_key x) k); [discriminate|apply H].
  - rewrite tget_tset. destruct (key_eqb (f_key x) k) eqn:E; [|apply H]. intros Q. injection Q as <-.
    apply key_eqb_eq in E. subst k. exact (H _ _ G).
Qed.
Lemma rorp_eq_table t src dest b t' : rorp_eq t src dest = Some (b, t') ->
  t' = t \/ exists e, tget t (f_key src) = Some e /\ t' = tset t (f_key src) (mk_lentry (l_index e) (l_remaining e) DNone None).
Proof.
  unfold rorp_eq. repeat (match goal with |- (if ?c then _ else _) = _ -> _ => destruct c end; [intros E; injection E as _ <-; now left|]).
  destruct (tget t (f_key src)) as [e|]; [|discriminate]. destruct (l_dest e); intros E; injection E as _ <-; [now left| |now left].
  right. now exists e.
Qed.
Lemma sound_eq pre t src dest b t' : sound pre t -> rorp_eq t src dest = Some (b, t') -> sound pre t'.
Proof.
  intros H E. destruct (rorp_eq_table _ _ _ _ _ E) as [->|(e & G & ->)]; [assumption|].
  intros k e'. rewrite tget_tset. destruct (key_eqb (f_key src) k) eqn:K; [|apply H]. intros Q. injection Q as <-.
  apply key_eqb_eq in K. subst k. exact (H _ _ G).
Qed.
Lemma sound_decide same pre t src dest w t' : sound pre t -> decide same t src dest = Some (w, t') ->
  sound pre t' /\ forall i, w = LinkTo i -> exists x y, src = Some x /\ 1 < f_nlinks x /\ In y pre /\ multi y = true /\ f_key y = f_key x /\ i = f_index y /\ i <> f_index x.
Proof.
  intros H E.
  assert (HC : forall t, sound pre t -> match src with
    | None => Some (Gone, t)
    | Some x => if is_linked t x then option_map (fun i => (LinkTo i, t)) (get_link_index t x) else Some (Fresh, t)
    end = Some (w, t') -> sound pre t' /\ forall i, w = LinkTo i -> exists x y, src = Some x /\ 1 < f_nlinks x /\ In y pre /\ multi y = true /\ f_key y = f_key x /\ i = f_index y /\ i <> f_index x).
  { clear t H E. intros t H E. destruct src as [x|]; [|injection E as <- <-; split; [assumption|discriminate]].
    destruct (is_linked t x) eqn:L; [|injection E as <- <-; split; [assumption|discriminate]].
    unfold get_link_index in E. unfold is_linked in L. apply andb_true_iff in L as [L1 L2].
    destruct (tget t (f_key x)) as [e|] eqn:G; [|discriminate]. cbn in E. injection E as <- <-. split; [assumption|].
    intros i Q. injection Q as <-. destruct (H _ _ G) as (y & Y1 & Y2 & Y3 & Y4). exists x, y.
    apply Z.ltb_lt in L1. repeat split; auto. intros Q. apply negb_true_iff in L2. rewrite <- Q in L2.
    assert (idx_eqb (l_index e) (l_index e) = true) by (now apply idx_eqb_eq). congruence. }
  unfold decide in E. destruct src as [x|]; [|destruct dest; now apply (HC t)]. destruct dest as [d|]; [|now apply (HC t)].
  destruct (same x d); [|now apply (HC t)].
  destruct (rorp_eq t x d) as [[[] t1]|] eqn:Q; [| |discriminate].
  - injection E as <- <-. split; [now apply (sound_eq _ _ _ _ _ _ H Q)|discriminate].
  - apply (HC t1); [now apply (sound_eq _ _ _ _ _ _ H Q)|exact E].
Qed.

(** ** with right counts *)
Section Counts.
Variable files : list lfile.
Hypothesis CO : consistent files.
(** [hd]: checksums are kept as well *)
Variable hd : bool.
(** [pre]: files added so far; [dels]: files removed so far *)
Definition inv (pre dels : list lfile) (t : table) : Prop :=
  forall k, match mem k pre with
    | [] => tget t k = None
    | x :: _ => if Z.of_nat (length (mem k dels)) =? f_nlinks x then tget t k = None
                else exists e, tget t k = Some e /\ l_index e = f_index x
                       /\ l_remaining e = f_nlinks x - Z.of_nat (length (mem k dels))
                       /\ (hd = true -> l_digest e = f_sha1 x)
    end.
Lemma mem_bound k a b x r : files = a ++ b -> mem k a = x :: r ->
  Z.of_nat (length (mem k a)) + Z.of_nat (length (mem k b)) <= f_nlinks x /\ multi x = true /\ 2 <= f_nlinks x /\ f_key x = k.
Proof using CO.
  intros E M. assert (Hx : In x (mem k a)) by (rewrite M; now left). apply mem_in in Hx as (H1 & H2 & H3).
  assert (HX : In x files) by (rewrite E, in_app_iff; now left).
  assert (H2' := H2). unfold multi in H2'. apply andb_true_iff in H2' as [R N]. apply Z.leb_le in N.
  assert (B := co_names _ CO x HX R N).
  rewrite (filter_ext (partner x) (isk k)) in B by (intros y; rewrite partner_isk by assumption; now rewrite H3).
  rewrite E, filter_app, app_length in B. fold (mem k a) in B. fold (mem k b) in B. split; [|auto]. lia.
Qed.
Lemma mem_same k a b x r y : files = a ++ b -> mem k a = x :: r -> In y files -> multi y = true -> f_key y = k -> f_nlinks y = f_nlinks x.
Proof using CO.
  intros E M Hy My Ky. assert (Hx : In x (mem k a)) by (rewrite M; now left). apply mem_in in Hx as (H1 & H2 & H3).
  apply (co_count _ CO); [rewrite E, in_app_iff; now left|assumption|]. rewrite partner_isk by assumption.
  unfold isk. rewrite My. cbn [andb]. rewrite key_eqb_eq. congruence.
Qed.
Lemma inv_nil : inv [] [] [].
Proof. intros k. reflexivity. Qed.
Lemma inv_add pre dels q post t o x dest : files = (pre ++ [x]) ++ post -> pre = dels ++ q ->
  inv pre dels t -> inv (pre ++ [x]) dels (fst (fst (add_rorp t o x dest))).
Proof using CO.
  intros EF EP H k. destruct (add_rorp_table t o x dest) as (dk & ET). specialize (H k). rewrite mem_app.
  set (t' := fst (fst (add_rorp t o x dest))) in *.
  assert (ME : mem k [x] = if isk k x then [x] else []) by (unfold mem; cbn [filter]; now destruct (isk k x)).
  destruct (isk k x) eqn:K.
  - unfold isk in K. apply andb_true_iff in K as [M K]. apply key_eqb_eq in K. rewrite M, K in ET. rewrite ME.
    destruct (mem k pre) as [|y r] eqn:MP.
    + rewrite H in ET. rewrite ET. cbn [app]. assert (MD : mem k dels = []).
      { rewrite EP, mem_app in MP. now apply app_eq_nil in MP. }
      rewrite MD. cbn [length]. assert (2 <= f_nlinks x) by (unfold multi in M; lia).
      destruct (Z.eqb_spec (Z.of_nat 0) (f_nlinks x)); [lia|]. rewrite tget_tset, key_eqb_refl.
      eexists. split; [reflexivity|]. cbn [l_index l_remaining l_digest]. split; [reflexivity|]. split; [lia|reflexivity].
    + cbn [app]. rewrite <- app_assoc in EF. cbn [app] in EF. destruct (mem_bound k pre (x :: post) y r EF MP) as (B & _).
      assert (LB : (length (mem k dels) <= length (mem k pre))%nat) by (rewrite EP, mem_app, app_length; lia).
      assert (1 <= length (mem k (x :: post)))%nat.
      { change (x :: post) with ([x] ++ post). rewrite mem_app, ME. cbn. lia. }
      destruct (Z.eqb_spec (Z.of_nat (length (mem k dels))) (f_nlinks y)); [lia|].
      destruct H as (e & G & H). rewrite G in ET. rewrite ET. exists e. split; [exact G|exact H].
  - rewrite ME, app_nil_r. assert (EQ : tget t' k = tget t k); [|rewrite EQ; exact H]. rewrite ET.
    unfold isk in K. destruct (multi x); [|reflexivity]. cbn [andb] in K. destruct (tget t (f_key x)); [reflexivity|].
    now rewrite tget_tset, K.
Qed.
Lemma inv_del pre dels q post t x : files = pre ++ post -> pre = dels ++ x :: q ->
  inv pre dels t -> inv pre (dels ++ [x]) (del_rorp t x).
Proof using CO.
  intros EF EP H k. specialize (H k).
  assert (ME : mem k [x] = if isk k x then [x] else []) by (unfold mem; cbn [filter]; now destruct (isk k x)).
  rewrite mem_app, ME, app_length.
  destruct (mem k pre) as [|y r] eqn:MP.
  - assert (K : isk k x = false).
    { destruct (isk k x) eqn:K; [|reflexivity]. exfalso. assert (Hi : In x (mem k pre)).
      { unfold mem. apply filter_In. split; [rewrite EP, in_app_iff; right; now left|assumption]. }
      rewrite MP in Hi. destruct Hi. }
    unfold del_rorp. destruct (multi x) eqn:M; cbn [negb]; [|assumption]. unfold isk in K. rewrite M in K. cbn [andb] in K.
    destruct (tget t (f_key x)) as [e|]; [|assumption]. destruct (l_remaining e =? 1); [rewrite tget_tdel|rewrite tget_tset]; now rewrite K.
  - destruct (isk k x) eqn:K.
    + unfold isk in K. apply andb_true_iff in K as [M K]. apply key_eqb_eq in K.
      destruct (mem_bound k pre post y r EF MP) as (B & _).
      assert (LB : (length (mem k dels) + 1 <= length (mem k pre))%nat).
      { rewrite EP. change (dels ++ x :: q) with (dels ++ [x] ++ q). rewrite !mem_app, !app_length, ME. cbn. lia. }
      destruct (Z.eqb_spec (Z.of_nat (length (mem k dels))) (f_nlinks y)); [lia|].
      destruct H as (e & G & H1 & H2 & H3). unfold del_rorp. rewrite M. cbn [negb]. rewrite K, G. cbn [length].
      destruct (Z.eqb_spec (l_remaining e) 1).
      * rewrite tget_tdel, key_eqb_refl. destruct (Z.eqb_spec (Z.of_nat (length (mem k dels) + 1)) (f_nlinks y)); [reflexivity|lia].
      * rewrite tget_tset, key_eqb_refl. destruct (Z.eqb_spec (Z.of_nat (length (mem k dels) + 1)) (f_nlinks y)); [lia|].
        eexists. split; [reflexivity|]. cbn [l_index l_remaining l_digest]. split; [assumption|]. split; [lia|assumption].
    + cbn [length]. rewrite Nat.add_0_r.
      assert (EQ : tget (del_rorp t x) k = tget t k); [|rewrite EQ; exact H].
      unfold del_rorp. destruct (multi x) eqn:M; cbn [negb]; [|reflexivity]. unfold isk in K. rewrite M in K. cbn [andb] in K.
      destruct (tget t (f_key x)) as [e|]; [|reflexivity]. destruct (l_remaining e =? 1); [rewrite tget_tdel|rewrite tget_tset]; now rewrite K.
Qed.
Lemma inv_fold pre post q : files = pre ++ post -> forall dels t, pre = dels ++ q -> inv pre dels t ->
  inv pre pre (fold_left del_rorp q t).
Proof using CO.
  intros EF. induction q as [|x q IH]; intros dels t EP H.
  - rewrite app_nil_r in EP. subst dels. exact H.
  - cbn [fold_left]. apply (IH (dels ++ [x])); [now rewrite <- app_assoc|]. now apply (inv_del pre dels q post).
Qed.
(** the file last added *)
Lemma inv_linked pre dels q post t x : files = (pre ++ [x]) ++ post -> pre = dels ++ q -> inv (pre ++ [x]) dels t ->
  is_linked t x = (match find (partner x) pre with Some _ => true | None => false end) /\
  (forall y, find (partner x) pre = Some y -> exists e, tget t (f_key x) = Some e /\ l_index e = f_index y /\ (hd = true -> l_digest e = f_sha1 y)) /\
  (multi x = true -> tget t (f_key x) <> None).
Proof using CO.
  intros EF EP H. assert (HX : In x files) by (rewrite EF, !in_app_iff; left; right; now left).
  destruct (multi x) eqn:M.
  - rewrite find_mem by assumption. specialize (H (f_key x)). rewrite mem_app in H.
    assert (ME : mem (f_key x) [x] = [x]) by (unfold mem, isk; cbn [filter]; now rewrite M, key_eqb_refl).
    rewrite ME in H.
    assert (N2 : 2 <= f_nlinks x) by (unfold multi in M; lia).
    assert (L : is_linked t x = match tget t (f_key x) with Some e => negb (idx_eqb (l_index e) (f_index x)) | None => false end).
    { unfold is_linked. destruct (Z.ltb_spec 1 (f_nlinks x)); [reflexivity|lia]. }
    rewrite L.
    assert (LB : (length (mem (f_key x) dels) <= length (mem (f_key x) pre))%nat) by (rewrite EP, mem_app, app_length; lia).
    destruct (mem (f_key x) pre) as [|y r] eqn:MP; cbn [app hd_error length] in *.
    + destruct (mem_bound (f_key x) (pre ++ [x]) post x [] EF) as (B & _); [rewrite mem_app, MP, ME; reflexivity|].
      rewrite mem_app, MP, ME in B. cbn [app length] in B.
      destruct (Z.eqb_spec (Z.of_nat (length (mem (f_key x) dels))) (f_nlinks x)); [lia|].
      destruct H as (e & G & H1 & H2 & H3). rewrite G. rewrite H1. split; [|split; [discriminate|intros _; discriminate]].
      assert (idx_eqb (f_index x) (f_index x) = true) by (now apply idx_eqb_eq). now rewrite H.
    + destruct (mem_bound (f_key x) (pre ++ [x]) post y (r ++ [x]) EF) as (B & _); [rewrite mem_app, MP, ME; reflexivity|].
      rewrite mem_app, MP, ME, app_length in B. cbn [app length] in B, LB.
      destruct (Z.eqb_spec (Z.of_nat (length (mem (f_key x) dels))) (f_nlinks y)); [lia|].
      destruct H as (e & G & H1 & H2 & H3). rewrite G. rewrite H1. split; [|split; [|intros _; discriminate]].
      * destruct (idx_eqb (f_index y) (f_index x)) eqn:E; [|reflexivity]. exfalso. apply idx_eqb_eq in E.
        assert (Hy : In y pre). { assert (Hi : In y (mem (f_key x) pre)) by (rewrite MP; now left). now apply mem_in in Hi. }
        pose proof (co_paths _ CO) as ND. rewrite EF, !map_app in ND. cbn [map] in ND. rewrite <- app_assoc in ND.
        apply NoDup_remove_2 in ND. apply ND. rewrite in_app_iff. left. rewrite <- E. now apply in_map.
      * intros z Q. injection Q as <-. exists e. auto.
  - rewrite find_not_multi by assumption. split; [|split; [discriminate|discriminate]].
    unfold is_linked. destruct (1 <? f_nlinks x) eqn:N; [|reflexivity]. exfalso. unfold multi in M.
    destruct (f_reg x) eqn:R; [cbn [andb] in M; lia|]. pose proof (proj2 (co_nonreg _ CO x HX) R). lia.
Qed.
End Counts.
Lemma inv_eq hdd pre dels t src dest b t' : inv hdd pre dels t -> rorp_eq t src dest = Some (b, t') -> inv false pre dels t'.
Proof.
  intros H E k. specialize (H k). destruct (rorp_eq_table _ _ _ _ _ E) as [->|(e & G & ->)].
  - destruct (mem k pre) as [|x r]; [assumption|]. destruct (_ =? _); [assumption|]. destruct H as (e & G & H1 & H2 & _).
    exists e. repeat split; auto. discriminate.
  - destruct (mem k pre) as [|x r].
    + rewrite tget_tset. destruct (key_eqb (f_key src) k) eqn:K; [|assumption]. apply key_eqb_eq in K. subst. congruence.
    + destruct (_ =? _).
      * rewrite tget_tset. destruct (key_eqb (f_key src) k) eqn:K; [|assumption]. apply key_eqb_eq in K. subst. congruence.
      * destruct H as (e' & G' & H1 & H2 & _). rewrite tget_tset. destruct (key_eqb (f_key src) k) eqn:K.
        -- apply key_eqb_eq in K. subst k. rewrite G in G'. injection G' as <-. eexists. split; [reflexivity|].
           cbn. repeat split; auto. discriminate.
        -- exists e'. repeat split; auto. discriminate.
Qed.
(** the decision *)
Lemma decide_spec files (CO : consistent files) same pre dels q post t x dest :
  files = (pre ++ [x]) ++ post -> pre = dels ++ q -> inv false (pre ++ [x]) dels t ->
  exists w t', decide same t (Some x) dest = Some (w, t') /\ inv false (pre ++ [x]) dels t' /\
    (w = match find (partner x) pre with Some y => LinkTo (f_index y) | None => Fresh end
     \/ w = Same /\ exists d, dest = Some d /\ same x d = true).
Proof.
  intros EF EP H.
  assert (HC : forall t, inv false (pre ++ [x]) dels t ->
    (if is_linked t x then option_map (fun i => (LinkTo i, t)) (get_link_index t x) else Some (Fresh, t))
    = Some (match find (partner x) pre with Some y => LinkTo (f_index y) | None => Fresh end, t)).
  { clear t H. intros t H. destruct (inv_linked files CO false _ _ _ _ _ _ EF EP H) as (L & F & _). rewrite L.
    destruct (find (partner x) pre) as [y|] eqn:E; [|reflexivity]. destruct (F y eq_refl) as (e & G & I & _).
    unfold get_link_index. rewrite G. cbn. now rewrite I. }
  unfold decide. destruct dest as [d|].
  - destruct (same x d) eqn:S.
    + destruct (rorp_eq t x d) as [[[] t1]|] eqn:Q.
      * exists Same, t1. split; [reflexivity|]. split; [now apply (inv_eq _ _ _ _ _ _ _ _ H Q)|]. right. split; [reflexivity|]. now exists d.
      * eexists _, t1. split; [apply HC; now apply (inv_eq _ _ _ _ _ _ _ _ H Q)|]. split; [now apply (inv_eq _ _ _ _ _ _ _ _ H Q)|now left].
      * exfalso. destruct (inv_linked files CO false _ _ _ _ _ _ EF EP H) as (L & F & M).
        unfold rorp_eq in Q.
        destruct (negb (f_reg x) || negb (f_reg d) || ((f_nlinks x =? 1) && (f_nlinks d =? 1))) eqn:C1; [discriminate|].
        destruct (negb (is_linked t x) && match f_sha1 d with None => true | Some _ => false end); [discriminate|].
        destruct (negb (f_nlinks x =? f_nlinks d)) eqn:C3; [discriminate|].
        destruct (tget t (f_key x)) as [e|] eqn:G; [destruct (l_dest e); discriminate|].
        destruct (multi x) eqn:MX; [now apply M|].
        (* a regular file with no more than one link, and not exactly one *)
        apply orb_false_iff in C1 as [C1 C2]. apply orb_false_iff in C1 as [C1 _]. apply negb_false_iff in C1.
        apply negb_false_iff, Z.eqb_eq in C3. rewrite <- C3 in C2. unfold multi in MX. rewrite C1 in MX. cbn [andb] in MX.
        assert (HX : In x files) by (rewrite EF, !in_app_iff; left; right; now left).
        pose proof (proj1 (co_nonreg _ CO x HX)). lia.
    + eexists _, t. split; [now apply HC|]. split; [assumption|now left].
  - eexists _, t. split; [now apply HC|]. split; [assumption|now left].
Qed.
