From Coq Require Import List ZArith Bool Ascii Lia Sorted.
From Verif Require Import Base M_Iter L_Iter L_Tree M_TreeFs L_TreeFs M_DirPatch S_DirPatch L_DirPatch M_RepoPatch S_RepoPatch L_RepoPatch
  M_DirPerms S_DirPerms.
Import List ListNotations.
Local Open Scope Z_scope.

Definition setp (p : Z) (o : option node) : option node :=
  match o with Some (NDir a) => Some (NDir (mk_attr p (a_mtime a) (a_rest a))) | _ => o end.

Lemma chmod_exact root p i a t : opens root i t -> get i (files t) = Some (NDir a) ->
  exists t', chmod root p i t = Some t' /\ temps t' = temps t
    /\ forall j, get j (files t') = if idx_eqb i j then setp p (get i (files t)) else get j (files t).
Proof.
  intros H G. unfold chmod. rewrite reachable_open by assumption. rewrite G. eexists. split; [reflexivity|]. split; [reflexivity|].
  intros j. cbn [files]. rewrite get_put. reflexivity.
Qed.

Section Perms.
Variable root : bool.
Variables new old : list entry.
Variable t0 : tree.
Hypothesis Hnew : sorted_by fst new.
Hypothesis Hold : sorted_by fst old.
Hypothesis Tnew : a_tree new.
Hypothesis Told : a_tree old.
Hypothesis Hlist : as_listed root old (files t0).

Let closed (b : attr) := negb root && low (a_perms b).
Definition note (p : option entry * option entry) : list (idx * Z) :=
  match p with
  | (src, Some (i, NDir b)) => if closed b then match src with Some (_, NDir a) => [(i, a_perms a)] | _ => [] end else []
  | _ => []
  end.

Lemma opened_closed n : (forall b, n = NDir b -> closed b = false) -> opened root n = n.
Proof.
  intros H. destruct n as [b|d a]; [|reflexivity]. cbn [opened]. unfold kept_usable. specialize (H b eq_refl).
  unfold closed, low in H. now rewrite H.
Qed.

Definition opened_upto (pre : list (option entry * option entry)) (cur : tree) : Prop :=
  (forall j n, get j old = Some n -> In j (map pair_path pre) -> get j (files cur) = Some (opened root n))
  /\ (forall j, get j old = None \/ ~ In j (map pair_path pre) -> get j (files cur) = get j (files t0))
  /\ temps cur = temps t0.

Lemma open_all_ok l : forall pre cur, collate2 fst fst new old = pre ++ l -> opened_upto pre cur ->
  exists t', open_all root l cur = Some (flat_map note l, t') /\ opened_upto (pre ++ l) t'.
Proof.
  induction l as [|p l IH]; intros pre cur Hc H; cbn [open_all flat_map].
  - exists cur. rewrite app_nil_r. split; [reflexivity|assumption].
  - pose proof (collate2_sorted fst fst new old Hnew Hold) as Hs. rewrite Hc in Hs.
    assert (Hlt : forall q, In q pre -> idx_lt (pair_key fst fst q) (pair_key fst fst p)).
    { intros q Hq. clear - Hs Hq. induction pre as [|z pre IH]; [destruct Hq|]. cbn [app] in Hs. apply sorted_inv in Hs as (H1 & H2).
      destruct Hq as [<-|Hq]; [|now apply IH]. apply H2. apply in_or_app. right. now left. }
    assert (Hgt : forall q, In q l -> idx_lt (pair_key fst fst p) (pair_key fst fst q)).
    { intros q Hq. clear - Hs Hq. induction pre as [|z pre IH]; cbn [app] in Hs; apply sorted_inv in Hs as (H1 & H2); auto. }
    assert (Hin : In p (collate2 fst fst new old)) by (rewrite Hc; apply in_or_app; right; now left).
    pose proof (collate2_sound _ _ _ _ _ Hin) as Hp.
    set (i := pair_path p).
    assert (Hni : ~ In i (map pair_path pre)).
    { intros X. apply in_map_iff in X as (q & E & X). apply Hlt in X. unfold i in E. rewrite <- !pair_path_key in X. rewrite E in X.
      now apply idx_lt_irrefl in X. }
    (* a step which opens [i], if listed *)
    assert (Hstep : forall t1, (forall n, get i old = Some n -> get i (files t1) = Some (opened root n)) ->
      (get i old = None -> get i (files t1) = get i (files cur)) ->
      (forall j, j <> i -> get j (files t1) = get j (files cur)) -> temps t1 = temps cur -> opened_upto (pre ++ [p]) t1).
    { intros t1 S1 S2 S3 S4. destruct H as (A1 & A2 & A3). split; [|split; [|congruence]].
      - intros j n G X. rewrite map_app in X. apply in_app_or in X as [X|[X|[]]].
        + rewrite S3 by (intros ->; contradiction). now apply A1.
        + fold i in X. subst j. now apply S1.
      - intros j X. rewrite map_app in X. destruct (list_eq_dec (list_eq_dec ascii_dec) j i) as [->|N].
        + destruct X as [X|X]; [|exfalso; apply X, in_or_app; right; now left]. rewrite S2 by assumption. apply A2. now left.
        + rewrite S3 by assumption. apply A2. destruct X as [X|X]; [now left|]. right. intros Y. apply X. apply in_or_app. now left. }
    assert (Hno : (forall b, get i old = Some (NDir b) -> closed b = false) -> opened_upto (pre ++ [p]) cur).
    { intros X. apply Hstep; try reflexivity. intros n G. destruct H as (_ & A2 & _). rewrite (A2 i (or_intror Hni)).
      rewrite opened_closed by (intros b ->; now apply X). destruct (Hlist _ _ G) as [Y|Y]; [assumption|].
      rewrite Y. f_equal. apply opened_closed. intros b ->. now apply X. }
    assert (Hgo : forall n1 t1, note p = n1 -> opened_upto (pre ++ [p]) t1 -> exists t',
      match open_all root l t1 with None => None | Some (n', t2) => Some (n1 ++ n', t2) end = Some (note p ++ flat_map note l, t') /\ opened_upto (pre ++ p :: l) t').
    { intros n1 t1 <- X. destruct (IH (pre ++ [p]) t1) as (t' & -> & Y); [now rewrite <- app_assoc|assumption|].
      exists t'. split; [reflexivity|]. now rewrite <- app_assoc in Y. }
    destruct p as [src [[k [b|d a]]|]].
    + assert (Gk : get k old = Some (NDir b) /\ i = k).
      { destruct src as [[k' m]|]; cbn [fst] in Hp.
        - destruct Hp as (_ & Hp & E). split; [now apply sorted_get|]. unfold i. cbn [pair_path fst]. assumption.
        - split; [now apply sorted_get|reflexivity]. }
      destruct Gk as (Gk & Ek). rewrite Ek in *. cbn [open_pair].
      destruct (negb root && low (a_perms b)) eqn:Ec.
      * assert (Hop : opens root k cur).
        { intros q B. pose proof (tree_below old q k (NDir b) Told Gk B) as Dq.
          destruct (get q old) as [[a|? ?]|] eqn:Gq; try discriminate.
          destruct H as (A1 & _). rewrite (A1 q (NDir a) Gq).
          - cbn [opened]. apply keep_open.
          - assert (Iq : In q (map pair_path (collate2 fst fst new old))).
            { pose proof Gq as Gq'. apply sorted_get in Gq; [|assumption].
              destruct (collate2_complete_r fst fst new old (q, NDir a) Hnew Hold Gq) as [(y & _ & Ey & Z)|(_ & Z)];
                apply in_map_iff; eexists; (split; [|exact Z]); [cbn [pair_path]; now rewrite Ey|reflexivity]. }
            rewrite Hc, map_app in Iq. apply in_app_or in Iq as [Iq|[Iq|Iq]]; [assumption| |].
            + exfalso. fold i in Iq. rewrite Ek in Iq. now apply (proj2 B).
            + exfalso. apply in_map_iff in Iq as (z & Ez & Iz). apply Hgt in Iz. rewrite <- (pair_path_key z), <- pair_path_key in Iz. change (pair_path (src, Some (k, NDir b))) with i in Iz. rewrite Ek in Iz. rewrite Ez in Iz.
              destruct (prefix_le _ _ (proj1 B)) as [L|L]; [now apply (proj2 B)|]. apply (idx_lt_irrefl q). eapply idx_lt_trans; eassumption. }
        assert (Gc : exists a, get k (files cur) = Some (NDir a) /\ a_mtime a = a_mtime b /\ a_rest a = a_rest b).
        { destruct H as (_ & A2 & _). rewrite (A2 k (or_intror Hni)). destruct (Hlist _ _ Gk) as [Y|Y]; rewrite Y; [eauto|].
          cbn [opened]. eexists. split; [reflexivity|]. unfold kept_usable. destruct (negb root && (a_perms b mod 512 <? 448)); now split. }
        destruct Gc as (a & Gc & Em & Er).
        destruct (chmod_exact root (Z.lor 448 (a_perms b)) k a cur Hop Gc) as (t1 & -> & T1 & F1).
        apply Hgo; [cbn [note]; unfold closed; now rewrite Ec|]. apply Hstep.
        -- intros n G. rewrite Gk in G. injection G as <-. rewrite F1, idx_eqb_refl, Gc. cbn [setp opened]. unfold kept_usable.
           unfold low in Ec. rewrite Ec, Em, Er. reflexivity.
        -- congruence.
        -- intros j Hj. rewrite F1. assert (N : idx_eqb k j = false) by (apply idx_eqb_neq; congruence). now rewrite N.
        -- assumption.
      * apply Hgo; [cbn [note]; unfold closed; now rewrite Ec|]. apply Hno. intros b' G. assert (b' = b) by congruence. now subst b'.
    + assert (Gk : get i old = Some (NOther d a)).
      { destruct src as [[k' m]|]; cbn [fst] in Hp.
        - destruct Hp as (_ & Hp & E). unfold i. cbn [pair_path fst]. rewrite E. now apply sorted_get.
        - now apply sorted_get. }
      cbn [open_pair]. apply Hgo; [reflexivity|]. apply Hno. intros b G. congruence.
    + cbn [open_pair]. apply Hgo; [now destruct src|]. apply Hno. intros b G. exfalso. destruct src as [[k m]|]; [|destruct Hp].
      apply sorted_get in G; [|assumption]. destruct (collate2_complete_r fst fst new old (i, NDir b) Hnew Hold G) as [(y & _ & Ey & Z)|(_ & Z)].
      * pose proof (sorted_unique _ _ _ _ (collate2_sorted fst fst new old Hnew Hold) Hin Z) as X. cbn [pair_key fst] in X.
        unfold i in Ey. cbn [pair_path fst] in Ey. symmetry in Ey. apply X in Ey. discriminate.
      * pose proof (sorted_unique _ _ _ _ (collate2_sorted fst fst new old Hnew Hold) Hin Z eq_refl). discriminate.
Qed.

Let noted := flat_map note (collate2 fst fst new old).

Lemma noted_in i p : In (i, p) noted <-> exists a b, get i new = Some (NDir a) /\ get i old = Some (NDir b) /\ closed b = true /\ p = a_perms a.
Proof.
  unfold noted. rewrite in_flat_map. split.
  - intros (q & Hq & Hn). pose proof (collate2_sound _ _ _ _ _ Hq) as Hs. destruct q as [src [[k [b|d a]]|]]; cbn [note] in Hn; try now destruct Hn.
    destruct (closed b) eqn:E; [|destruct Hn]. destruct src as [[k' [a|? ?]]|]; try now destruct Hn. destruct Hn as [[= <- <-]|[]].
    cbn [fst] in Hs. destruct Hs as (H1 & H2 & E1). subst k'. apply sorted_get in H1, H2; try assumption. exists a, b. auto.
  - intros (a & b & G1 & G2 & E & ->). apply sorted_get in G1; [|assumption].
    destruct (collate2_complete_l fst fst new old (i, NDir a) Hnew Hold G1) as [([k n] & Hy & E1 & Hin)|(Hn & _)].
    + cbn [fst] in E1. subst k. exists (Some (i, NDir a), Some (i, n)). split; [assumption|].
      apply sorted_get in Hy; [|assumption]. rewrite G2 in Hy. injection Hy as <-. cbn [note]. rewrite E. now left.
    + exfalso. cbn [fst] in Hn. apply no_key in Hn. congruence.
Qed.

Lemma noted_sorted : sorted_by fst noted.
Proof.
  unfold noted.
  assert (K : forall q x, In q (collate2 fst fst new old) -> In x (note q) -> fst x = pair_key fst fst q).
  { intros q [i p] Hq Hx. pose proof (collate2_sound _ _ _ _ _ Hq) as Hs.
    destruct q as [src [[k [b|d a]]|]]; cbn [note] in Hx; try now destruct Hx.
    destruct (closed b); [|destruct Hx]. destruct src as [[k' [a|? ?]]|]; try now destruct Hx. destruct Hx as [[= <- <-]|[]].
    cbn [fst pair_key] in *. now destruct Hs. }
  pose proof (collate2_sorted fst fst new old Hnew Hold) as H.
  induction (collate2 fst fst new old) as [|q l IH]; [constructor|]. cbn [flat_map]. apply sorted_inv in H as (H1 & H2).
  assert (IH' : sorted_by fst (flat_map note l)) by (apply IH; [intros q' x Hq'; apply K; now right|assumption]).
  assert (Hl : forall x y, In x (note q) -> In y (flat_map note l) -> idx_lt (fst x) (fst y)).
  { intros x y Hx Hy. apply in_flat_map in Hy as (q' & Hq' & Hy). rewrite (K q x (or_introl eq_refl) Hx), (K q' y (or_intror Hq') Hy). now apply H2. }
  destruct (note q) as [|x [|y r]] eqn:E; [exact IH'| |].
  - cbn [app]. apply sorted_cons; [assumption|]. intros z Hz. apply Hl; [now left|assumption].
  - exfalso. destruct q as [src [[k [b|d a]]|]]; cbn [note] in E; try discriminate. destruct (closed b); [|discriminate].
    destruct src as [[k' [a|? ?]]|]; discriminate.
Qed.

(** closing: [want] is the state before *)
Variable want : idx -> option node.
Hypothesis Hwant : forall i p, In (i, p) noted -> is_dir (want i) = true.
Hypothesis Hopen : forall i p q, In (i, p) noted -> below q i -> open_dir root (want q).

Lemma close_ok l : forall rest cur, noted = l ++ rest ->
  (forall j p, In (j, p) rest -> get j (files cur) = setp p (want j)) ->
  (forall j, ~ In j (map fst rest) -> get j (files cur) = want j) ->
  exists t', close_list root (rev l) cur = Some t' /\ temps t' = temps cur
    /\ (forall j p, In (j, p) noted -> get j (files t') = setp p (want j))
    /\ (forall j, ~ In j (map fst noted) -> get j (files t') = want j).
Proof.
  induction l as [|[i p] l IH] using rev_ind; intros rest cur E H1 H2.
  - exists cur. cbn [rev close_list]. cbn [app] in E. rewrite E. auto.
  - rewrite rev_unit. cbn [close_list]. rewrite <- app_assoc in E. cbn [app] in E.
    pose proof noted_sorted as Hs. rewrite E in Hs.
    assert (Hgt : forall y, In y rest -> idx_lt i (fst y)).
    { intros y Hy. clear - Hs Hy. induction l as [|z l IH]; cbn [app] in Hs; apply sorted_inv in Hs as (X1 & X2); [now apply X2|auto]. }
    assert (Hin : In (i, p) noted) by (rewrite E; apply in_or_app; right; now left).
    assert (Hi : ~ In i (map fst rest)).
    { intros X. apply in_map_iff in X as (y & Ey & Y). apply Hgt in Y. rewrite Ey in Y. now apply idx_lt_irrefl in Y. }
    assert (Gi : get i (files cur) = want i) by now apply H2.
    pose proof (Hwant i p Hin) as D. destruct (want i) as [[a|? ?]|] eqn:W; try discriminate.
    assert (Hop : opens root i cur).
    { intros q B. rewrite H2; [eapply Hopen; eassumption|]. intros X. apply in_map_iff in X as (y & Ey & Y). apply Hgt in Y. rewrite Ey in Y.
      destruct (prefix_le _ _ (proj1 B)) as [L|L]; [now apply (proj2 B)|]. apply (idx_lt_irrefl q). eapply idx_lt_trans; eassumption. }
    destruct (chmod_exact root p i a cur Hop Gi) as (t1 & -> & T1 & F1).
    destruct (IH ((i, p) :: rest) t1) as (t' & E' & T' & X1 & X2).
    + assumption.
    + intros j q [[= <- <-]|X].
      * rewrite F1, idx_eqb_refl, Gi, W. reflexivity.
      * rewrite F1. destruct (idx_eqb i j) eqn:Ej; [|now apply H1]. apply idx_eqb_eq in Ej. subst j. exfalso. apply Hi.
        apply in_map_iff. now exists (i, q).
    + intros j X. rewrite F1. destruct (idx_eqb i j) eqn:Ej.
      * apply idx_eqb_eq in Ej. subst j. exfalso. apply X. now left.
      * apply H2. intros Y. apply X. now right.
    + exists t'. split; [assumption|]. split; [congruence|]. split; assumption.
Qed.
End Perms.

Section Session.
Variable root : bool.
Variable now : idx -> Z.
Variable increments : bool.
Variable cached : idx -> bool.
Variable same : node -> node -> bool.
Variable made : idx -> option node -> option (option node).
Variables new old : list entry.
Variable t0 : tree.
Hypothesis Hnew : sorted_by fst new.
Hypothesis Hold : sorted_by fst old.
Hypothesis Tnew : a_tree new.
Hypothesis Told : a_tree old.
Hypothesis T0 : a_tree (files t0).
Hypothesis Hlist : as_listed root old (files t0).
Hypothesis Hhid : forall i, unlisted (files t0) old i -> get i new = None.
Hypothesis Hkeep : forall d c, unlisted (files t0) old (d ++ [c]) -> get d old <> None -> is_dir (get d new) = true.
Hypothesis Htemps : forall i, get i (temps t0) = None.
Hypothesis Hsame : forall m t, same m t = true -> is_dir (Some m) = is_dir (Some t).
Hypothesis Hperms : forall a b, same (NDir a) (NDir b) = true -> a_perms a = a_perms b.
Hypothesis Hgone : forall i r, made i None = Some r -> r = None.
Hypothesis Hfile : forall i n r, made i (Some n) = Some r -> exists d a, r = Some (NOther d a).
Hypothesis Hfail : forall d c, get (d ++ [c]) old <> None -> made (d ++ [c]) None = None ->
  is_dir (get d new) = true.

Lemma in_paths i n : get i old = Some n -> In i (map pair_path (collate2 fst fst new old)).
Proof.
  intros G. apply sorted_get in G; [|assumption].
  destruct (collate2_complete_r fst fst new old (i, n) Hnew Hold G) as [(y & _ & Ey & Z)|(_ & Z)];
    apply in_map_iff; eexists; (split; [|exact Z]); [cbn [pair_path]; now rewrite Ey|reflexivity].
Qed.

Theorem dp_session_spec : exists t1 t',
  dp_session root now increments cached made same new old t0
    = Some (pre_flags increments cached made t1 (fill_in fst (get_diffs same new old)), t')
  /\ (forall i n, get i old = Some n -> get i (files t1) = Some (opened root n))
  /\ (forall i, get i old = None -> get i (files t1) = get i (files t0))
  /\ (forall i, get i (files t') = mirror_closed root same made new old (files t0) i)
  /\ (forall i, get i (temps t') = None)
  /\ a_tree (files t1) /\ a_tree (files t').
Proof.
  destruct (open_all_ok root new old t0 Hnew Hold Told Hlist (collate2 fst fst new old) [] t0 eq_refl) as (t1 & E1 & A1 & A2 & A3).
  { split; [intros j n _ []|]. split; reflexivity. }
  cbn [app] in A1, A2.
  assert (L1 : forall i n, get i old = Some n -> get i (files t1) = Some (opened root n)).
  { intros i n G. apply A1; [assumption|]. eapply in_paths; eassumption. }
  assert (L2 : forall i, get i old = None -> get i (files t1) = get i (files t0)) by (intros i G; apply A2; now left).
  assert (Dir : forall i, is_dir (get i (files t1)) = is_dir (get i (files t0)) /\ (get i (files t1) = None <-> get i (files t0) = None)).
  { intros i. destruct (get i old) as [n|] eqn:G; [|rewrite (L2 i G); tauto]. rewrite (L1 _ _ G).
    destruct (Hlist _ _ G) as [Y|Y]; rewrite Y; destruct n as [a|d a]; split; try reflexivity; split; discriminate. }
  assert (T1 : a_tree (files t1)).
  { intros d c n G. assert (X : get (d ++ [c]) (files t0) <> None) by (rewrite <- (proj2 (Dir _)); congruence).
    destruct (get (d ++ [c]) (files t0)) as [m|] eqn:Gm; [|congruence]. apply T0 in Gm as (a & Ga).
    pose proof (proj1 (Dir d)) as Y. rewrite Ga in Y. destruct (get d (files t1)) as [[b|? ?]|]; try discriminate. eauto. }
  assert (U1 : forall i, unlisted (files t1) old i -> unlisted (files t0) old i).
  { intros i (X & Y). split; [|assumption]. now rewrite <- (L2 i Y). }
  assert (Hh1 : forall i, unlisted (files t1) old i -> get i new = None) by auto.
  assert (Hk1 : forall d c, unlisted (files t1) old (d ++ [c]) -> get d old <> None -> is_dir (get d new) = true) by eauto.
  assert (Ht1 : forall i, get i (temps t1) = None) by (intros i; now rewrite A3).
  destruct (rp_apply_spec root now increments cached same made new old t1) as (t2 & E2 & F2 & T2); try assumption.
  set (want := mirror_after root same made new old (files t1)) in *.
  assert (Wdir : forall q, is_dir (get q new) = true -> open_dir root (want q)).
  { intros q Dq. unfold want, mirror_after. destruct (differs same new old q) eqn:Df.
    - destruct (get q new) as [[a|? ?]|]; try discriminate. apply keep_open.
    - unfold differs in Df. destruct (get q new) as [m|]; [|discriminate]. destruct (get q old) as [n|] eqn:Go; [|discriminate].
      apply negb_false_iff in Df. rewrite (Hsame _ _ Df) in Dq. destruct n as [b|? ?]; [|discriminate]. rewrite (L1 _ _ Go). apply keep_open. }
  destruct (close_ok root new old Hnew Hold want) with (l := flat_map (note root) (collate2 fst fst new old)) (rest := @nil (idx * Z)) (cur := t2) as (t3 & E3 & T3 & X1 & X2).
  - intros i p Hi. apply (noted_in root new old Hnew Hold) in Hi as (a & b & G1 & _). destruct (Wdir i) as (w & -> & _); [now rewrite G1|reflexivity].
  - intros i p q Hi B. apply (noted_in root new old Hnew Hold) in Hi as (a & b & G1 & _). apply Wdir. eapply tree_below; [exact Tnew|exact G1|exact B].
  - now rewrite app_nil_r.
  - intros j p [].
  - intros j _. apply F2.
  - exists t1, t3. unfold dp_session. rewrite E1, E2. unfold close_all. rewrite E3. split; [reflexivity|].
    split; [assumption|]. split; [assumption|].
    assert (Tt : a_tree (files t3)).
    { assert (K : forall i, is_dir (get i (files t3)) = is_dir (want i) /\ (get i (files t3) <> None -> want i <> None)).
      { intros i. destruct (in_dec (list_eq_dec (list_eq_dec ascii_dec)) i (map fst (flat_map (note root) (collate2 fst fst new old)))) as [Y|Y].
        - apply in_map_iff in Y as ([j p] & Ej & Y). cbn [fst] in Ej. subst j. rewrite (X1 i p Y). destruct (want i) as [[a|? ?]|]; cbn [setp]; split; auto; discriminate.
        - rewrite (X2 i Y). split; auto. }
      intros d c n G. assert (Y : is_dir (want d) = true).
      { apply (want_tree root now cached same made new old t1) with (c := c); try assumption. apply (proj2 (K (d ++ [c]))). congruence. }
      rewrite <- (proj1 (K d)) in Y. destruct (get d (files t3)) as [[a|? ?]|]; try discriminate. eauto. }
    split; [|split; [intros i; now rewrite T3|split; assumption]]. clear Tt.
    intros i. unfold mirror_closed.
    destruct (match get i new, get i old with Some (NDir a), Some (NDir b) => negb root && low (a_perms b) | _, _ => false end) eqn:N.
    + destruct (get i new) as [[a|? ?]|] eqn:G1; try discriminate. destruct (get i old) as [[b|? ?]|] eqn:G2; try discriminate.
      rewrite (X1 i (a_perms a)).
      2:{ apply (noted_in root new old Hnew Hold). exists a, b. repeat split; assumption. }
      unfold want, mirror_after. destruct (differs same new old i) eqn:Df.
      * rewrite G1. unfold was_closed. rewrite G2. unfold low in N. rewrite N. cbn [setp]. unfold kept_usable.
        destruct a as [p m r]. cbn [a_perms]. destruct (negb root && (p mod 512 <? 448)); reflexivity.
      * rewrite (L1 _ _ G2). cbn [opened setp]. unfold differs in Df. rewrite G1, G2 in Df. apply negb_false_iff in Df. apply Hperms in Df.
        rewrite Df. unfold kept_usable. destruct b as [p m r]. cbn [a_perms]. destruct (negb root && (p mod 512 <? 448)); reflexivity.
    + rewrite (X2 i).
      2:{ intros Y. apply in_map_iff in Y as ([j p] & Ej & Y). cbn [fst] in Ej. subst j. apply (noted_in root new old Hnew Hold) in Y as (a & b & G1 & G2 & C & _).
          rewrite G1, G2 in N. congruence. }
      unfold want, mirror_after. destruct (differs same new old i) eqn:Df.
      * destruct (get i new) as [[a|? ?]|] eqn:G1; try reflexivity. unfold was_closed. destruct (get i old) as [[b|? ?]|]; try reflexivity.
        unfold low in N. now rewrite N.
      * destruct (get i old) as [n|] eqn:G2; [|now apply L2]. rewrite (L1 _ _ G2). f_equal. apply opened_closed. intros b ->.
        unfold differs in Df. rewrite G2 in Df. destruct (get i new) as [m|] eqn:G1; [|discriminate]. apply negb_false_iff in Df.
        apply Hsame in Df. destruct m as [a|? ?]; [exact N|discriminate].
Qed.
End Session.
