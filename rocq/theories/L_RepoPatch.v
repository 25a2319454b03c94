From Coq Require Import List ZArith Bool Ascii Lia Sorted.
From Verif Require Import Base M_Iter L_Iter L_Tree M_TreeFs L_TreeFs M_DirPatch S_DirPatch L_DirPatch M_RepoPatch S_RepoPatch.
Import List ListNotations.
Local Open Scope Z_scope.

Lemma not_low_bits p : low p = false -> Z.testbit p 6 = true /\ Z.testbit p 7 = true.
Proof.
  unfold low. intros H. apply Z.ltb_ge in H. pose proof (Z.mod_pos_bound p 512 ltac:(lia)) as B.
  assert (E : Z.div (p mod 512) 64 = 7).
  { symmetry; apply Z.div_unique with (r := p mod 512 - 448); lia. }
  assert (Hb : forall k, (k = 6 \/ k = 7) -> Z.testbit p k = Z.testbit (p mod 512) k).
  { intros k Hk. change 512 with (2 ^ 9). rewrite Z.mod_pow2_bits_low; [reflexivity|lia]. }
  assert (Hc : forall k, 0 <= k -> Z.testbit (p mod 512) (k + 6) = Z.testbit 7 k).
  { intros k Hk. rewrite <- E. change 64 with (2 ^ 6). now rewrite Z.div_pow2_bits by lia. }
  rewrite !Hb by auto. split; [apply (Hc 0); lia|apply (Hc 1); lia].
Qed.

Lemma lor_le b c : 0 <= b -> 0 <= c -> b <= Z.lor b c.
Proof.
  intros Hb Hc. rewrite (Z.lor_comm b c). 
  assert (E : Z.lor c b = b + Z.ldiff c b).
  { rewrite Z.add_nocarry_lxor.
    - apply Z.bits_inj'. intros k Hk. rewrite Z.lxor_spec, Z.lor_spec, Z.ldiff_spec. now destruct (Z.testbit b k), (Z.testbit c k).
    - apply Z.bits_inj'. intros k Hk. rewrite Z.land_spec, Z.ldiff_spec, Z.bits_0. now destruct (Z.testbit b k), (Z.testbit c k). }
  rewrite E. assert (0 <= Z.ldiff c b) by (apply Z.ldiff_nonneg; now left). lia.
Qed.

Lemma find_flag (l : list flag) i : find (fun fl => idx_eqb (fst fl) i) l = None <-> ~ In i (map fst l).
Proof.
  induction l as [|[j n] l IH]; cbn [find map fst In]; [tauto|].
  destruct (idx_eqb j i) eqn:E.
  - apply idx_eqb_eq in E. subst j. split; [discriminate|]. intros H. exfalso. apply H. now left.
  - apply idx_eqb_neq in E. rewrite IH. split; [|tauto]. intros H [X|X]; [congruence|contradiction].
Qed.

Lemma keep_keep root a : kept_usable root (kept_usable root a) = kept_usable root a.
Proof.
  unfold kept_usable. destruct (negb root && (a_perms a mod 512 <? 448)) eqn:E; [|now rewrite E].
  cbn [a_perms]. replace (Z.lor 448 (a_perms a) mod 512 <? 448) with false; [now rewrite andb_false_r|].
  symmetry. apply Z.ltb_ge. change 512 with (2 ^ 9). rewrite <- Z.land_ones by lia. rewrite Z.land_lor_distr_l.
  change (Z.land 448 (Z.ones 9)) with 448. rewrite Z.land_ones by lia.
  assert (X : 0 <= a_perms a mod 2 ^ 9) by (apply Z.mod_pos_bound; lia).
  apply lor_le; lia.
Qed.

Lemma keep_open root a : open_dir root (Some (NDir (kept_usable root a))).
Proof.
  exists (kept_usable root a). split; [reflexivity|]. destruct root eqn:Er; [now left|]. right.
  unfold kept_usable. cbn [negb andb]. destruct (a_perms a mod 512 <? 448) eqn:E.
  - cbn [a_perms]. rewrite !Z.lor_spec. split; reflexivity.
  - apply not_low_bits. exact E.
Qed.

Lemma opened_dir root o : is_dir (option_map (opened root) o) = is_dir o.
Proof. now destruct o as [[a|d a]|]. Qed.
Lemma opened_none root o : option_map (opened root) o = None <-> o = None.
Proof. destruct o; cbn [option_map]; split; intros H; try discriminate H; reflexivity. Qed.
Lemma opened_file root o : is_dir o = false -> option_map (opened root) o = o.
Proof. now destruct o as [[a|d a]|]. Qed.

Section Run.
Variable root : bool.
Variable now : idx -> Z.
Variable increments : bool.
Variable cached : idx -> bool.
Variable same : node -> node -> bool.
Variable made : idx -> option node -> option (option node).
Variables new old : list entry.
Variable t0 : tree.
Hypothesis Hnew : sorted_by fst new.
Hypothesis Hold : sorted_by fst old.
Hypothesis Tnew : a_tree new.
Hypothesis Told : a_tree old.
Hypothesis T0 : a_tree (files t0).
Hypothesis Hlist : forall i n, get i old = Some n -> get i (files t0) = Some (opened root n).
Hypothesis Hhid : forall i, unlisted (files t0) old i -> get i new = None.
Hypothesis Hkeep : forall d c, unlisted (files t0) old (d ++ [c]) -> get d old <> None -> is_dir (get d new) = true.
Hypothesis Htemps : forall i, get i (temps t0) = None.
Hypothesis Hsame : forall m t, same m t = true -> is_dir (Some m) = is_dir (Some t).
Hypothesis Hgone : forall i r, made i None = Some r -> r = None.
Hypothesis Hfile : forall i n r, made i (Some n) = Some r -> exists d a, r = Some (NOther d a).
Hypothesis Hfail : forall d c, get (d ++ [c]) old <> None -> made (d ++ [c]) None = None ->
  is_dir (get d new) = true.

Let mir (i : idx) := get i old.
Let want := mirror_after root same made new old (files t0).
Let start (i : idx) := get i (files t0).
Let diffs := get_diffs same new old.
Let keep := kept_usable root.

Lemma differs_differ i : differs same new old i = true <-> differ same new old i.
Proof.
  unfold differs, differ. destruct (get i new) as [m|], (get i old) as [t|].
  - destruct (same m t); cbn [negb]; split; congruence.
  - tauto.
  - tauto.
  - split; [discriminate|tauto].
Qed.

Lemma want_same i : ~ differ same new old i -> want i = start i.
Proof.
  intros H. unfold want, mirror_after. destruct (differs same new old i) eqn:E; [|reflexivity].
  apply differs_differ in E. contradiction.
Qed.

(** what becomes of a difference *)
Definition result (i : idx) (n : option node) : option node :=
  match n with
  | Some (NDir a) => Some (NDir (keep a))
  | _ => match made i n with Some r => r | None => mir i end
  end.

Lemma want_diff i : differ same new old i -> want i = result i (get i new).
Proof. intros H. unfold want, mirror_after. apply differs_differ in H. rewrite H. unfold result, mir, keep. now destruct (get i new) as [[a|d a]|]. Qed.

Lemma differ_start i : differ same new old i -> start i = option_map (opened root) (get i old).
Proof.
  unfold differ, start. destruct (get i old) as [t|] eqn:E; [intros _; now apply Hlist|].
  destruct (get i new) as [m|] eqn:E1; [|intros []]. intros _. destruct (get i (files t0)) as [n|] eqn:E2; [|reflexivity].
  exfalso. assert (X : get i new = None) by (apply Hhid; split; congruence). congruence.
Qed.

(** nothing is left in a directory which shall not be one *)
Lemma want_gone d c : is_dir (get d new) = false -> get d old <> None -> want (d ++ [c]) = None.
Proof.
  intros H Ho.
  assert (E1 : get (d ++ [c]) new = None).
  { destruct (get (d ++ [c]) new) as [m|] eqn:E1; [|reflexivity]. apply Tnew in E1 as (a & E1). now rewrite E1 in H. }
  destruct (get (d ++ [c]) old) as [t|] eqn:E2.
  - rewrite want_diff by (unfold differ; now rewrite E1, E2). rewrite E1. cbn [result].
    destruct (made (d ++ [c]) None) as [r|] eqn:E3; [now apply Hgone in E3|].
    exfalso. assert (X : is_dir (get d new) = true) by (apply (Hfail d c); [congruence|assumption]). congruence.
  - rewrite want_same by (unfold differ; rewrite E1, E2; tauto). unfold start.
    destruct (get (d ++ [c]) (files t0)) as [n|] eqn:E3; [|reflexivity]. exfalso.
    assert (X : is_dir (get d new) = true); [|congruence]. apply (Hkeep d c); [split; congruence|assumption].
Qed.

Lemma want_dir_new i : is_dir (get i new) = true -> is_dir (want i) = true.
Proof.
  intros H. destruct (differs same new old i) eqn:D.
  - apply differs_differ in D. rewrite (want_diff _ D). destruct (get i new) as [[a|d a]|]; [reflexivity|discriminate|discriminate].
  - assert (D' : ~ differ same new old i) by (rewrite <- differs_differ; congruence). rewrite (want_same _ D').
    unfold differ in D'. unfold start. destruct (get i new) as [m|]; [|discriminate]. destruct (get i old) as [t|] eqn:E; [|now exfalso].
    rewrite (Hlist _ _ E). destruct (same m t) eqn:X; [|now exfalso]. rewrite (Hsame _ _ X) in H. now destruct t as [a|d a].
Qed.

Lemma want_tree d c : want (d ++ [c]) <> None -> is_dir (want d) = true.
Proof.
  intros H. destruct (is_dir (get d new)) eqn:Dn; [now apply want_dir_new|].
  destruct (get d old) as [t|] eqn:E; [exfalso; apply H; apply want_gone; [assumption|congruence]|].
  assert (E1 : get (d ++ [c]) new = None).
  { destruct (get (d ++ [c]) new) as [m|] eqn:E1; [|reflexivity]. apply Tnew in E1 as (a & E1). now rewrite E1 in Dn. }
  assert (E2 : get (d ++ [c]) old = None).
  { destruct (get (d ++ [c]) old) as [m|] eqn:E2; [|reflexivity]. apply Told in E2 as (a & E2). congruence. }
  rewrite want_same in H by (unfold differ; rewrite E1, E2; tauto). unfold start in H.
  destruct (get (d ++ [c]) (files t0)) as [n|] eqn:G; [|congruence]. apply T0 in G as (a & G).
  assert (N : get d new = None) by (apply Hhid; split; congruence).
  rewrite want_same by (unfold differ; rewrite N, E; tauto). unfold start. now rewrite G.
Qed.

Lemma differ_dirs i d : differ same new old i -> below d i -> is_dir (get d new) = true \/ is_dir (get d old) = true.
Proof.
  unfold differ. intros H B. destruct (get i new) as [m|] eqn:E1.
  - left. eapply tree_below; [exact Tnew|exact E1|exact B].
  - destruct (get i old) as [t|] eqn:E2; [|destruct H]. right. eapply tree_below; [exact Told|exact E2|exact B].
Qed.

(** a path filled in is an unchanged directory *)
Lemma filler_dir p : ~ differ same new old p -> (is_dir (get p new) = true \/ is_dir (get p old) = true) ->
  exists a, start p = Some (NDir (keep a)) /\ want p = Some (NDir (keep a)) /\ get p old = Some (NDir a).
Proof.
  intros H D. rewrite (want_same p H). unfold differ in H. unfold start.
  destruct (get p new) as [m|], (get p old) as [t|] eqn:E; try now exfalso; auto.
  - apply Hlist in E. rewrite E. destruct (same m t) eqn:S; [|congruence]. rewrite (Hsame _ _ S) in D.
    destruct t as [a|d a]; [|now destruct D]. exists a. repeat split; reflexivity.
  - destruct D; discriminate.
Qed.

(** *** invariant *)
Definition at_path (done : idx -> Prop) (brs : list (idx * what)) (t : tree) (j : idx) : Prop :=
  (forall w, In (j, w) brs ->
     open_dir root (get j (files t))
     /\ match w with
        | Update a => want j = Some (NDir (keep a)) /\ get j (temps t) = None
        | Replace => is_dir (get j new) = false /\ get j old <> None /\ get j (temps t) = want j
        end)
  /\ (~ In j (map fst brs) ->
      get j (temps t) = None /\ (done j -> get j (files t) = want j) /\ (~ done j -> get j (files t) = start j)).

Record inv (done : idx -> Prop) (brs : list (idx * what)) (t : tree) : Prop := {
  i_chain : chain_st (map fst brs);
  i_up : forall b p, In b (map fst brs) -> prefix p b -> In p (map fst brs);
  i_at : forall j, at_path done brs t j }.

Lemma inv_opens done brs t i : inv done brs t -> (forall p, below p i -> In p (map fst brs)) -> opens root i t.
Proof.
  intros H Hp p B. apply Hp in B. apply in_map_iff in B as ([q w] & E & B). cbn [fst] in E. subst q.
  destruct (i_at _ _ _ H p) as (A & _). now apply (A w).
Qed.

(** what happens at [i] leaves the other paths as they are *)
Lemma at_others done brs t t' i n m j : inv done brs t -> (forall p, below p i -> In p (map fst brs)) ->
  changed i n t t' -> temp_is i m t t' -> j <> i -> at_path done brs t' j.
Proof.
  intros H Hp (C1 & C2 & C3) (D1 & D2) Hj. destruct (i_at _ _ _ H j) as (A1 & A2).
  destruct (list_eq_dec (list_eq_dec ascii_dec) i []) as [->|Hi].
  - split; unfold open_dir in *; rewrite C2, D2 by auto; assumption.
  - destruct (list_eq_dec (list_eq_dec ascii_dec) j (removelast i)) as [->|N].
    + split.
      * intros w Hw. destruct (A1 w Hw) as ((a & Ha & P) & A). split.
        -- destruct (C3 Hi a Ha) as (a' & H' & P'). exists a'. split; [assumption|now rewrite P'].
        -- rewrite D2 by auto. assumption.
      * intros Hn. exfalso. apply Hn, Hp. now apply removelast_below.
    + split; unfold open_dir in *; rewrite C2, D2 by auto; assumption.
Qed.



Lemma end_inv done b w brs t : inv done ((b, w) :: brs) t -> done b -> (forall j, below b j -> done j) ->
  exists t', rp_end root now b w t = Some t' /\ inv done brs t'.
Proof.
  intros H Db Dj. destruct H as [Hc Hu Ha]. cbn [map fst] in *.
  assert (Hnb : ~ In b (map fst brs)).
  { intros Hb. now apply (chain_all _ _ Hc) in Hb. }
  assert (Hup : forall p, below p b -> In p (map fst brs)).
  { intros p (P & N). destruct (Hu b p) as [E|E]; [now left|assumption|congruence|assumption]. }
  assert (Hop : opens root b t).
  { intros p B. apply Hup in B. apply in_map_iff in B as ([q w'] & E & B). cbn [fst] in E. subst q.
    destruct (Ha p) as (A & _). apply (A w'). now right. }
  assert (Hchain : chain_st (map fst brs)) by now apply chain_tail in Hc.
  assert (Hu' : forall b0 p, In b0 (map fst brs) -> prefix p b0 -> In p (map fst brs)).
  { intros b0 p Hb0 P. destruct (Hu b0 p) as [E|E]; [now right|assumption| |assumption].
    subst p. destruct (chain_all _ _ Hc b0 Hb0) as (P' & N). exfalso. apply N. now apply prefix_antisym. }
  destruct (Ha b) as (A1 & _). destruct (A1 w (or_introl eq_refl)) as ((a0 & G & P0) & A). clear A1.
  assert (Hmid : forall t' m n, changed b n t t' -> temp_is b m t t' -> n = want b -> m = None -> inv done brs t').
  { intros t' m n C D -> ->. split; [assumption|assumption|]. intros j.
    destruct (list_eq_dec (list_eq_dec ascii_dec) j b) as [->|N].
    - split; [intros w' Hw'; exfalso; apply Hnb; apply in_map_iff; now exists (b, w')|]. intros _.
      destruct C as (C & _). destruct D as (D & _). rewrite C, D. repeat split. intros Hd. now exfalso.
    - assert (X : at_path done ((b, w) :: brs) t' j).
      { eapply at_others; [split; eassumption| |exact C|exact D|assumption]. intros p B. cbn [map fst]. right. now apply Hup. }
      destruct X as (X1 & X2). split.
      + intros w' Hw'. apply X1. now right.
      + intros Hn. apply X2. cbn [map fst]. intros [E|E]; [congruence|contradiction]. }
  destruct w as [a|]; cbn [rp_end].
  - destruct A as (A1 & A2). destruct (set_attribs_ok root b a0 a t Hop G) as (t' & E & C & D). rewrite E. unfold keep, kept_usable in A1.
    unfold low. destruct (negb root && (a_perms a mod 512 <? 448)).
    + destruct (chmod_ok root (Z.lor 448 (a_perms a)) b a t') as (t2 & E2 & C2 & D2); [eapply changed_opens; eauto|apply C|].
      exists t2. split; [assumption|]. eapply Hmid; [eapply changed_trans; [exact C|exact C2]|apply temp_same; congruence|now symmetry|assumption].
    + exists t'. split; [reflexivity|]. eapply Hmid; [exact C|apply temp_same; exact D|now symmetry|assumption].
  - destruct A as (A1 & A0 & A2).
    assert (Hch : forall c, get (b ++ [c]) (files t) = None /\ get (b ++ [c]) (temps t) = None).
    { intros c. destruct (Ha (b ++ [c])) as (_ & X). destruct X as (X1 & X2 & _).
      - cbn [map fst]. intros [E|E].
        + apply (f_equal (@length _)) in E. rewrite app_length in E. cbn in E. lia.
        + apply (chain_all _ _ Hc) in E as ([r E] & _). apply (f_equal (@length _)) in E. rewrite !app_length in E. cbn in E. lia.
      - split; [|assumption]. rewrite X2; [|apply Dj, app_below]. now apply want_gone. }
    destruct (rmdir_ok root now b a0 t Hop G) as (t1 & E & C & D); [apply Hch|apply Hch|]. rewrite E.
    destruct (get b (temps t1)) as [n|] eqn:E1.
    + destruct (rename_temp_ok root now b n t1) as (t2 & E2 & C2 & D2); [eapply changed_opens; eauto|assumption|now destruct C as (-> & _)|].
      exists t2. split; [assumption|]. eapply Hmid; [eapply changed_trans; [exact C|exact C2]|eapply temp_trans; [apply temp_same; exact D|exact D2]| |reflexivity].
      rewrite D in E1. congruence.
    + exists t1. split; [reflexivity|]. eapply Hmid; [exact C|apply temp_same; exact D| |].
      * rewrite D in E1. congruence.
      * rewrite D in E1. assumption.
Qed.

Lemma finish_inv done x brs : forall t, inv done brs t ->
  (forall b, In b (map fst brs) -> ~ prefix b x -> done b /\ forall j, below b j -> done j) ->
  exists brs' t', rp_finish root now x brs t = Some (brs', t') /\ inv done brs' t'
    /\ forall b, In b (map fst brs') <-> In b (map fst brs) /\ prefix b x.
Proof.
  induction brs as [|[b w] brs IH]; intros t H Hd; cbn [rp_finish].
  - exists [], t. split; [reflexivity|]. split; [assumption|]. intros b. cbn [map In]. tauto.
  - destruct (is_prefix b x) eqn:E.
    + exists ((b, w) :: brs), t. split; [reflexivity|]. split; [assumption|]. intros b'. split; [|tauto].
      intros Hb. split; [assumption|]. apply is_prefix_spec in E. cbn [map fst] in Hb. destruct Hb as [<-|Hb]; [assumption|].
      pose proof (i_chain _ _ _ H) as Hc. cbn [map fst] in Hc. apply (chain_all _ _ Hc) in Hb as (P & _).
      eapply prefix_trans; eassumption.
    + assert (N : ~ prefix b x) by (rewrite <- is_prefix_spec; congruence).
      destruct (Hd b (or_introl eq_refl) N) as (D1 & D2).
      destruct (end_inv _ _ _ _ _ H D1 D2) as (t1 & -> & H1).
      destruct (IH t1 H1) as (brs' & t' & E' & H' & Hb').
      { intros b' Hb'. apply Hd. now right. }
      exists brs', t'. split; [assumption|]. split; [assumption|]. intros b'. rewrite Hb'. change (map fst ((b, w) :: brs)) with (b :: map fst brs). cbn [In].
      split; [tauto|]. intros ([E1|E1] & P); [subst b'; contradiction|tauto].
Qed.

Lemma end_all_inv done brs : forall t, inv done brs t -> (forall j, done j) ->
  exists t', rp_end_all root now brs t = Some t' /\ inv done [] t'.
Proof.
  induction brs as [|[b w] brs IH]; intros t H Hd; cbn [rp_end_all].
  - exists t. split; [reflexivity|assumption].
  - destruct (end_inv _ _ _ _ _ H (Hd b) (fun j _ => Hd j)) as (t1 & -> & H1). now apply IH.
Qed.

Lemma stat_at i t : opens root i t -> stat root i t = Some (get i (files t)).
Proof. intros H. unfold stat. now rewrite reachable_open. Qed.

(** one item: everything before [i] done, all directories above open *)
Definition before (i j : idx) : Prop := idx_lt j i.
Definition upto (i j : idx) : Prop := ~ idx_lt i j.

(** what is told the cache about an item *)
Definition item_flags (x : item) : list flag :=
  let '(i, d) := x in
  match d with
  | Some (NDir _) => if is_dir (start i) then if cached i then [(i, 1%nat)] else [] else [(i, 1%nat)]
  | _ =>
      if is_dir (start i) then
        match made i d with
        | Some _ => [(i, if increments then 1%nat else match d with Some _ => 1%nat | None => 2%nat end)]
        | None => []
        end
      else match made i d with
           | Some (Some _) => [(i, 1%nat)]
           | Some None => [(i, 2%nat)]
           | None => []
           end
  end.

Lemma item_fast brs t i d : inv (before i) brs t -> (forall p, below p i -> In p (map fst brs)) ->
  ~ In i (map fst brs) -> d = get i new -> differ same new old i -> is_dir d = false -> is_dir (start i) = false ->
  exists t', rp_fast root now made (i, d) t = Some (item_flags (i, d), t') /\ inv (upto i) brs t'.
Proof.
  intros H Hp Hi Ed Df Hd Hs. pose proof (inv_opens _ _ _ _ H Hp) as Hop.
  destruct (i_at _ _ _ H i) as (_ & X). destruct (X Hi) as (T & _ & F). specialize (F (idx_lt_irrefl i)).
  assert (Hw : want i = result i d) by (rewrite Ed; now apply want_diff).
  assert (Hr : result i d = match made i d with Some r => r | None => mir i end).
  { unfold result. now destruct d as [[a|dd a]|]. }
  assert (Hfl : item_flags (i, d) = match made i d with
           | Some (Some _) => [(i, 1%nat)]
           | Some None => [(i, 2%nat)]
           | None => []
           end).
  { unfold item_flags. rewrite Hs. destruct d as [[a|dd a]|]; [discriminate| |]; reflexivity. }
  assert (Hfin : forall t' , changed i (want i) t t' -> temp_is i None t t' -> inv (upto i) brs t').
  { intros t' C D. split; [apply H|apply H|]. intros j. destruct (list_eq_dec (list_eq_dec ascii_dec) j i) as [->|N].
    - split; [intros w Hw'; exfalso; apply Hi, in_map_iff; now exists (i, w)|]. intros _.
      destruct C as (C & _), D as (D & _). rewrite C, D. repeat split. intros Hd'. exfalso. apply Hd', idx_lt_irrefl.
    - destruct (at_others _ _ _ _ _ _ _ _ H Hp C D N) as (X1 & X2). split; [assumption|]. intros Hj.
      destruct (X2 Hj) as (Y1 & Y2 & Y3). split; [assumption|]. split.
      + intros Hu. apply Y2. unfold before. destruct (idx_trichotomy j i) as [L|[L|L]]; [assumption|congruence|contradiction].
      + intros Hu. apply Y3. unfold before, upto in *. intros L. apply Hu. intros L'.
        apply (idx_lt_irrefl i). eapply idx_lt_trans; eassumption. }
  unfold rp_fast. rewrite stat_at by assumption. rewrite F, Hs, Hfl.
  destruct (made i d) as [[n|]|] eqn:M.
  - assert (Hn : want i = Some n) by congruence. rewrite Hn in Hfin.
    destruct (write_temp_ok root now i n t Hop T) as (t1 & -> & C1 & D1).
    destruct (rename_temp_ok root now i n t1) as (t2 & -> & C2 & D2).
    + eapply changed_opens; eauto.
    + apply D1.
    + destruct C1 as (-> & _). now rewrite F.
    + exists t2. split; [reflexivity|]. apply Hfin; [eapply changed_trans; eauto|eapply temp_trans; eauto].
  - assert (Hn : want i = None) by congruence. rewrite Hn in Hfin.
    assert (En : d = None). { destruct d as [n|]; [|reflexivity]. apply Hfile in M as (? & ? & M). discriminate. }
    assert (Ex : start i <> None).
    { rewrite (differ_start i Df). unfold differ in Df. rewrite <- Ed, En in Df. destruct (get i old); [discriminate|destruct Df]. }
    destruct (start i) as [[a|dd a]|] eqn:G; [discriminate| |congruence].
    destruct (unlink_ok root now i dd a t Hop F) as (t1 & -> & C & D). exists t1. split; [reflexivity|].
    apply Hfin; [assumption|]. rewrite <- T. now apply temp_same.
  - assert (Hn : want i = start i).
    { rewrite Hw, Hr, differ_start by assumption. symmetry. apply opened_file. fold (mir i). change (mir i) with (get i old). pose proof (differ_start i Df) as Y. rewrite Y, opened_dir in Hs. exact Hs. }
    exists (touch now i t). split; [reflexivity|]. apply Hfin.
    + apply touch_changed; [congruence|reflexivity].
    + rewrite <- T. apply temp_same, touch_temps.
Qed.

Lemma item_start brs t i d : inv (before i) brs t -> (forall p, below p i -> In p (map fst brs)) ->
  (forall p, In p (map fst brs) -> below p i) ->
  (d = get i new /\ differ same new old i \/ exists a, d = Some (NDir (keep a)) /\ start i = d /\ want i = d /\ get i old = Some (NDir a)) ->
  (is_dir d = true \/ is_dir (start i) = true) ->
  exists t' w, rp_start root now increments mir cached made (i, d) t = Some (item_flags (i, d), w, t') /\ inv (upto i) ((i, w) :: brs) t'.
Proof.
  intros H Hp Hb Hk Hor. pose proof (inv_opens _ _ _ _ H Hp) as Hop.
  assert (Hi : ~ In i (map fst brs)). { intros Hi. apply Hb in Hi. now apply (proj2 Hi). }
  destruct (i_at _ _ _ H i) as (_ & X). destruct (X Hi) as (T & _ & F). specialize (F (idx_lt_irrefl i)).
  assert (Hw : want i = result i d).
  { destruct Hk as [(Ed & Df)|(a & -> & E1 & E2 & E3)]; [rewrite Ed; now apply want_diff|].
    rewrite E2. cbn [result]. unfold keep. now rewrite keep_keep. }
  assert (Hso : forall a, start i = Some (NDir a) -> exists b, get i old = Some (NDir b) /\ a = keep b).
  { intros a Ha. destruct Hk as [(Ed & Df)|(a' & -> & E1 & E2 & E3)]; [|exists a'; split; congruence]. rewrite (differ_start i Df) in Ha.
    destruct (get i old) as [[b|? ?]|]; try discriminate. injection Ha as <-. exists b. split; reflexivity. }
  assert (Hopen : forall a, start i = Some (NDir a) -> open_dir root (Some (NDir a))).
  { intros a Ha. apply Hso in Ha as (b & _ & ->). apply keep_open. }
  assert (Hfin : forall t' w n m, changed i n t t' -> open_dir root n -> temp_is i m t t' ->
    match w with Update a => want i = Some (NDir (keep a)) /\ m = None | Replace => is_dir (get i new) = false /\ get i old <> None /\ m = want i end ->
    inv (upto i) ((i, w) :: brs) t').
  { intros t' w n m C P D W. split.
    - cbn [map fst]. pose proof (i_chain _ _ _ H) as Hc. destruct brs as [|[b w'] brs']; [constructor|].
      cbn [map fst] in *. destruct (Hb b (or_introl eq_refl)). now constructor.
    - cbn [map fst]. intros b p [<-|Hin] Pp.
      + destruct (list_eq_dec (list_eq_dec ascii_dec) p i) as [->|N]; [now left|]. right. apply Hp. now split.
      + right. eapply (i_up _ _ _ H); eassumption.
    - intros j. destruct (list_eq_dec (list_eq_dec ascii_dec) j i) as [->|N].
      + split; [|intros N; exfalso; apply N; now left]. intros w' [[= <-]|Hw'].
        * destruct C as (C & _), D as (D & _). rewrite C, D. split; assumption.
        * exfalso. apply Hi, in_map_iff. now exists (i, w').
      + destruct (at_others _ _ _ _ _ _ _ _ H Hp C D N) as (X1 & X2). split.
        * intros w' [[= E _]|Hw']; [congruence|]. now apply X1.
        * cbn [map fst]. intros Hj. assert (Hj' : ~ In j (map fst brs)) by (intros Y; apply Hj; now right).
          destruct (X2 Hj') as (Y1 & Y2 & Y3). split; [assumption|]. split.
          -- intros Hu. apply Y2. unfold before. destruct (idx_trichotomy j i) as [L|[L|L]]; [assumption|congruence|contradiction].
          -- intros Hu. apply Y3. unfold before, upto in *. intros L. apply Hu. intros L'.
             apply (idx_lt_irrefl i). eapply idx_lt_trans; eassumption. }
  unfold rp_start. rewrite stat_at by assumption. rewrite F.
  replace (is_dir d || is_dir (start i)) with true.
  2:{ destruct Hor as [-> | ->]; [reflexivity|]. now rewrite orb_true_r. }
  assert (Hrep : is_dir d = false -> exists t' w, match rp_set_replacement root now increments mir made i d t with
    | None => None | Some (f, t1) => Some (f, Replace, t1) end = Some (item_flags (i, d), w, t') /\ inv (upto i) ((i, w) :: brs) t').
  { intros Hd. destruct Hor as [Hor|Hor]; [congruence|].
    destruct Hk as [(Ed & Df)|(a & E0 & _)]; [|subst d; discriminate].
    destruct (start i) as [[a0|? ?]|] eqn:S; try discriminate. specialize (Hopen a0 eq_refl). destruct (Hso a0 eq_refl) as (b0 & Hob & _).
    assert (Hr : want i = match made i d with Some r => r | None => mir i end).
    { rewrite Hw. destruct d as [[a|dd a]|]; [discriminate| |]; reflexivity. }
    assert (Hfl : item_flags (i, d) = match made i d with
        | Some _ => [(i, if increments then 1%nat else match d with Some _ => 1%nat | None => 2%nat end)]
        | None => []
        end).
    { unfold item_flags. rewrite S. destruct d as [[a|dd a]|]; [discriminate| |]; reflexivity. }
    assert (Hwr : forall o, o = want i -> exists t1, match o with None => Some t | Some n => write_temp root now i n t end = Some t1 /\ inv (upto i) ((i, Replace) :: brs) t1).
    { intros [n|] Ho.
      - destruct (write_temp_ok root now i n t Hop T) as (t1 & -> & C1 & D1). exists t1. split; [reflexivity|].
        rewrite F in C1. eapply Hfin; [exact C1|assumption|exact D1|]. split; [congruence|]. split; [congruence|assumption].
      - exists t. split; [reflexivity|]. eapply Hfin; [apply changed_self; reflexivity|now rewrite F|apply temp_same; reflexivity|].
        split; [congruence|]. split; [congruence|]. now rewrite T. }
    unfold rp_set_replacement. rewrite Hfl. destruct (made i d) as [r|] eqn:M.
    - destruct (Hwr r) as (t1 & -> & I1); [now symmetry|]. exists t1, Replace. split; [reflexivity|assumption].
    - destruct (Hwr (mir i)) as (t1 & -> & I1); [now symmetry|]. exists t1, Replace. split; [reflexivity|assumption]. }
  destruct d as [[a|dd a]|]; [|now apply Hrep|now apply Hrep]. clear Hrep.
  cbn [result] in Hw. unfold rp_prepare_dir. cbn [item_flags].
  destruct (start i) as [[a0|dd a0]|] eqn:G; cbn [is_dir].
  - exists t, (Update a). split; [reflexivity|]. 
    eapply Hfin; [apply changed_self; reflexivity|rewrite F; now apply Hopen|apply temp_same; reflexivity|]. split; assumption.
  - destruct (unlink_ok root now i dd a0 t Hop F) as (t1 & -> & C1 & D1).
    destruct (mkdir_ok root now i t1) as (t2 & a2 & -> & C2 & P2 & D2); [eapply changed_opens; eauto|apply C1|].
    exists t2, (Update a). split; [reflexivity|].
    eapply Hfin; [eapply changed_trans; [exact C1|exact C2]|now apply (open_448 root a2)|apply temp_same; congruence|].
    split; assumption.
  - destruct (mkdir_ok root now i t Hop F) as (t2 & a2 & -> & C2 & P2 & D2).
    exists t2, (Update a). split; [reflexivity|].
    eapply Hfin; [exact C2|now apply (open_448 root a2)|apply temp_same; congruence|]. split; assumption.
Qed.

(** *** the whole run *)
Let all := fill_in fst diffs.

Lemma all_sorted : sorted_by (fkey fst) all.
Proof. apply fill_in_sorted. now apply diffs_sorted. Qed.

(** every item differs, or is a directory filled in *)
Lemma all_inl i d : In (inl (i, d)) all -> d = get i new /\ differ same new old i.
Proof.
  intros H. apply (diffs_spec same new old Hnew Hold). fold diffs.
  rewrite <- (fill_in_elems fst diffs). apply in_flat_map. exists (inl (i, d)). split; [exact H|now left].
Qed.
Lemma all_covers i : differ same new old i -> In i (map (fkey fst) all).
Proof.
  intros H. assert (X : In (i, get i new) diffs) by (apply diffs_spec; auto).
  rewrite <- (fill_in_elems fst diffs) in X. apply in_flat_map in X as ([x|p] & Hx & X); [|destruct X].
  destruct X as [->|[]]. apply in_map_iff. exists (inl (i, get i new)). split; [reflexivity|exact Hx].
Qed.
Lemma all_inr p : In (inr p) all -> ~ differ same new old p /\ (is_dir (get p new) = true \/ is_dir (get p old) = true).
Proof.
  intros H. split.
  - intros D. assert (X : In (p, get p new) diffs) by (apply diffs_spec; auto).
    rewrite <- (fill_in_elems fst diffs) in X. apply in_flat_map in X as ([x|q] & Hx & X); [|destruct X].
    destruct X as [->|[]].
    pose proof (sorted_unique _ _ _ _ all_sorted H Hx eq_refl). discriminate.
  - apply (fill_in_only fst) in H as ([i d] & Hin & P & N). cbn [fst] in *.
    apply diffs_spec in Hin as (_ & D); [|assumption|assumption]. eapply differ_dirs; [exact D|]. now split.
Qed.
Lemma all_dirs e p : In e all -> below p (fkey fst e) -> is_dir (get p new) = true \/ is_dir (get p old) = true.
Proof.
  intros H B. destruct e as [[i d]|q]; cbn [fkey fst] in B.
  - apply all_inl in H as (_ & D). eapply differ_dirs; eassumption.
  - apply (fill_in_only fst) in H as ([i d] & Hin & P & N). cbn [fst] in *.
    apply diffs_spec in Hin as (_ & D); [|assumption|assumption]. eapply differ_dirs; [exact D|].
    split; [eapply prefix_trans; [apply B|exact P]|]. intros ->. apply N. apply prefix_antisym; [assumption|apply B].
Qed.
Lemma not_all j : ~ In j (map (fkey fst) all) -> want j = start j.
Proof. intros H. apply want_same. intros D. now apply H, all_covers. Qed.

(** the item of an element, with [start] there *)
Definition item_of (e : item + idx) : item :=
  match e with inl x => x | inr p => (p, start p) end.
Definition pre_flags (pre : list (item + idx)) : list flag := flat_map (fun e => item_flags (item_of e)) pre.

Inductive rinv (pre : list (item + idx)) : prun -> Prop :=
| RI_start : pre = [] -> rinv pre (mk_prun None [] false [] t0)
| RI_fast x t : pre = [x] -> fkey fst x = [] -> is_dir (get [] new) = false -> is_dir (get [] old) = false ->
    (forall i, get i (temps t) = None) -> get [] (files t) = want [] ->
    (forall i, i <> [] -> get i (files t) = start i) ->
    rinv pre (mk_prun (Some []) [] true (pre_flags pre) t)
| RI_run pre' x brs t : pre = pre' ++ [x] -> inv (upto (fkey fst x)) brs t ->
    (forall b, In b (map fst brs) -> prefix b (fkey fst x)) ->
    (forall p, below p (fkey fst x) -> In p (map fst brs)) ->
    In [] (map fst brs) ->
    (In (fkey fst x) (map fst brs)
     \/ is_dir (get (fkey fst x) new) = false /\ is_dir (get (fkey fst x) old) = false) ->
    rinv pre (mk_prun (Some (fkey fst x)) brs false (pre_flags pre) t).

Lemma inv_start : inv (fun j => False) [] t0.
Proof.
  split; [constructor|intros b p []|]. intros j. split; [intros w []|]. intros _. rewrite Htemps. repeat split. intros [].
Qed.

Lemma inv_weaken (done done' : idx -> Prop) brs t : inv done brs t ->
  (forall j, ~ In j (map fst brs) -> done' j -> done j \/ (~ done j /\ want j = start j)) ->
  (forall j, ~ In j (map fst brs) -> ~ done' j -> ~ done j) -> inv done' brs t.
Proof.
  intros H H1 H2. split; [apply H|apply H|]. intros j. destruct (i_at _ _ _ H j) as (A1 & A2). split; [assumption|].
  intros Hj. destruct (A2 Hj) as (B1 & B2 & B3). split; [assumption|]. split.
  - intros D. destruct (H1 j Hj D) as [D'|[D' E]]; [now apply B2|]. rewrite E. now apply B3.
  - intros D. apply B3. now apply H2.
Qed.


Lemma not_dir_old i : is_dir (get i (files t0)) = false -> is_dir (get i old) = false.
Proof. intros H. destruct (get i old) as [n|] eqn:E; [|reflexivity]. apply Hlist in E. rewrite E in H. now destruct n as [a|d a]. Qed.


Lemma item_of_key e : fst (item_of e) = fkey fst e.
Proof. now destruct e. Qed.
Lemma item_kind e : In e all -> let i := fkey fst e in let d := snd (item_of e) in
  d = get i new /\ differ same new old i \/ exists a, d = Some (NDir (keep a)) /\ start i = d /\ want i = d /\ get i old = Some (NDir a).
Proof.
  destruct e as [[i d]|p]; cbn [item_of fkey fst snd]; intros H.
  - left. now apply all_inl in H.
  - right. apply all_inr in H as (D & Hd). destruct (filler_dir p D Hd) as (a & E1 & E2 & E3). exists a. repeat split; congruence.
Qed.
Lemma fast_kind e : In e all -> is_dir (snd (item_of e)) = false ->
  snd (item_of e) = get (fkey fst e) new /\ differ same new old (fkey fst e).
Proof. intros H D. destruct (item_kind e H) as [X|(a & X & _)]; [exact X|]. rewrite X in D. discriminate. Qed.
Lemma can_fast_start e : In e all ->
  rp_can_fast mir (item_of e) = negb (is_dir (snd (item_of e))) && negb (is_dir (start (fkey fst e))).
Proof.
  intros H. unfold rp_can_fast. rewrite negb_orb, item_of_key. f_equal. f_equal. unfold mir.
  destruct (item_kind e H) as [(_ & D)|(a & _ & E1 & _ & E3)].
  - rewrite (differ_start _ D). symmetry. apply opened_dir.
  - rewrite E3. destruct (item_kind e H) as [(_ & D)|(b & E0 & E1' & _)]; [rewrite (differ_start _ D), opened_dir, E3; reflexivity|].
    rewrite E1', E0. reflexivity.
Qed.
Lemma fast_no_dir e : In e all -> is_dir (snd (item_of e)) = false -> is_dir (start (fkey fst e)) = false ->
  is_dir (get (fkey fst e) new) = false /\ is_dir (get (fkey fst e) old) = false.
Proof.
  intros H H1 H2. destruct (fast_kind e H H1) as (E & D). split; [congruence|]. now rewrite (differ_start _ D), opened_dir in H2.
Qed.

Lemma filled_ok e t : In e all -> (forall p, e = inr p -> opens root p t /\ get p (files t) = start p) -> filled root e t = Some (item_of e).
Proof.
  destruct e as [x|p]; intros H Hp; [reflexivity|]. cbn [filled item_of]. destruct (Hp p eq_refl) as (O & G).
  rewrite stat_at by assumption. rewrite G. apply all_inr in H as (D & Hd).
  destruct (filler_dir p D Hd) as (a & E1 & _ & _). now rewrite E1.
Qed.

Lemma pre_flags_app a b : pre_flags (a ++ b) = pre_flags a ++ pre_flags b.
Proof. unfold pre_flags. apply flat_map_app. Qed.

Lemma run_step pre e l r : all = pre ++ e :: l -> rinv pre r ->
  exists x r', filled root e (p_tree r) = Some x /\ rp_call root now increments mir cached made x r = Some r' /\ rinv (pre ++ [e]) r'.
Proof.
  intros Hall H. pose proof all_sorted as Hs. rewrite Hall in Hs.
  assert (Hin : In e all) by (rewrite Hall; apply in_or_app; right; now left).
  assert (Hsorted : forall y, In y pre -> idx_lt (fkey fst y) (fkey fst e)).
  { intros y Hy. clear - Hs Hy. induction pre as [|z pre IH]; [destruct Hy|]. cbn [app] in Hs. apply sorted_inv in Hs as (H1 & H2).
    destruct Hy as [<-|Hy]; [|now apply IH]. apply H2. apply in_or_app. right. now left. }
  assert (Hafter : forall y, In y l -> idx_lt (fkey fst e) (fkey fst y)).
  { intros y Hy. clear - Hs Hy. induction pre as [|z pre IH]; cbn [app] in Hs; apply sorted_inv in Hs as (H1 & H2); auto. }
  assert (Hanc : forall p, below p (fkey fst e) -> exists y, In y pre /\ fkey fst y = p).
  { intros p (P & N). pose proof (fill_in_ancestors fst diffs e p Hin P) as X. fold all in X. rewrite Hall in X.
    apply in_map_iff in X as (y & E & X). apply in_app_or in X as [X|[X|X]]; [eauto| |].
    - subst. now exfalso.
    - exfalso. apply Hafter in X. rewrite E in X. destruct (prefix_le _ _ P) as [L|L]; [contradiction|].
      apply (idx_lt_irrefl p). eapply idx_lt_trans; eassumption. }
  set (i := fkey fst e) in *. 
  inversion H as [Hpre Er|x t Hpre Hx Hd1 Hd2 HT HF HF' Er|pre' x brs t Hpre Hinv Hb Hp Hroot Hlast Er]; subst r.
  - (* the first item: the root *)
    subst pre. cbn [app] in *. cbn [p_tree].
    assert (Hi : i = []).
    { destruct i as [|c i'] eqn:Ei; [reflexivity|]. destruct (Hanc []) as (y & [] & _). split; [now exists (c :: i')|discriminate]. }
    assert (Hnb : forall p, below p i -> In p (@map (idx * what) idx fst [])).
    { intros p B. apply Hanc in B as (y & [] & _). }
    assert (Hop : opens root i t0). { intros p B. exfalso. now apply Hnb in B. }
    assert (Hnow : inv (before i) [] t0).
    { apply inv_weaken with (done := fun _ => False); [apply inv_start| |tauto]. intros j _ D. exfalso. unfold before in D.
      rewrite Hi in D. destruct j; discriminate D. }
    exists (item_of e). rewrite filled_ok; [|assumption|].
    2:{ intros p ->. split; [exact Hop|reflexivity]. }
    unfold rp_call. cbn [p_last p_tree p_flags]. rewrite can_fast_start by assumption. rewrite item_of_key. fold i.
    destruct (negb (is_dir (snd (item_of e))) && negb (is_dir (start i))) eqn:Ef.
    + apply andb_true_iff in Ef as (F1 & F2). apply negb_true_iff in F1, F2.
      destruct (fast_kind e Hin F1) as (K1 & K2).
      destruct (item_fast [] t0 i (snd (item_of e)) Hnow Hnb) as (t1 & E1 & I1); auto.
      replace (item_of e) with (i, snd (item_of e)) by (unfold i; rewrite <- item_of_key; now destruct (item_of e)).
      rewrite E1. eexists. split; [reflexivity|]. split; [reflexivity|]. cbn [fst app]. rewrite Hi.
      rewrite <- Hi. replace (item_flags (i, snd (item_of e))) with (pre_flags [e]) by (unfold pre_flags; cbn [flat_map]; rewrite app_nil_r; f_equal; unfold i; rewrite <- item_of_key; now destruct (item_of e)). rewrite Hi.
      destruct (fast_no_dir e Hin F1 F2) as (N1 & N2). fold i in N1, N2. rewrite Hi in N1, N2.
      apply RI_fast with (x := e); auto.
      * intros j. destruct (i_at _ _ _ I1 j) as (_ & X). now apply X.
      * destruct (i_at _ _ _ I1 []) as (_ & X). destruct X as (_ & X & _); [intros []|]. apply X. rewrite Hi. apply idx_lt_irrefl.
      * intros j Hj. destruct (i_at _ _ _ I1 j) as (_ & X). destruct X as (_ & _ & X); [intros []|]. apply X. rewrite Hi. intros Hu.
        apply Hu. destruct j; [congruence|reflexivity].
    + destruct (item_start [] t0 i (snd (item_of e)) Hnow Hnb) as (t1 & w & E1 & I1).
      { intros p []. }
      { now apply item_kind. }
      { destruct (is_dir (snd (item_of e))); [now left|]. destruct (is_dir (start i)); [now right|discriminate]. }
      replace (item_of e) with (i, snd (item_of e)) by (unfold i; rewrite <- item_of_key; now destruct (item_of e)).
      rewrite E1. eexists. split; [reflexivity|]. split; [reflexivity|]. cbn [fst app].
      replace (item_flags (i, snd (item_of e))) with (pre_flags [e]) by (unfold pre_flags; cbn [flat_map]; rewrite app_nil_r; f_equal; unfold i; rewrite <- item_of_key; now destruct (item_of e)).
      apply RI_run with (pre' := []); auto; fold i; cbn [map fst].
      * intros b [<-|[]]. apply prefix_refl.
      * intros p B. exfalso. now apply Hnb in B.
      * left. exact Hi.
      * left. now left.
  - (* nothing follows a root processed at once *)
    exfalso. assert (B : below [] i).
    { split; [now exists i|]. intros E. assert (L : idx_lt (fkey fst x) i) by (apply Hsorted; rewrite Hpre; now left).
      rewrite Hx, <- E in L. discriminate L. }
    destruct (all_dirs e [] Hin B) as [X|X]; congruence.
  - set (last := fkey fst x) in *. cbn [p_tree].
    assert (Hxin : In x pre) by (subst pre; apply in_or_app; right; now left).
    assert (Hlt : idx_lt last i) by now apply Hsorted.
    assert (Hle : forall y, In y pre -> ~ idx_lt last (fkey fst y)).
    { intros y Hy L. subst pre. apply in_app_or in Hy as [Hy|[->|[]]]; [|now apply (idx_lt_irrefl last)].
      assert (Hs' : sorted_by (fkey fst) (pre' ++ [x])).
      { clear - Hs. rewrite <- app_assoc in Hs. cbn [app] in Hs. induction pre' as [|z p IH]; cbn [app] in *.
        - apply sorted_inv in Hs as (H1 & H2). apply sorted_cons; [constructor|intros ? []].
        - apply sorted_inv in Hs as (H1 & H2). apply sorted_cons; [now apply IH|]. intros y Hy. apply H2.
          apply in_app_or in Hy as [Hy|[<-|[]]]; apply in_or_app; [now left|right; now left]. }
      clear - Hs' Hy L. unfold last in L. induction pre' as [|z p IH]; [destruct Hy|]. cbn [app] in Hs'.
      apply sorted_inv in Hs' as (H1 & H2). destruct Hy as [<-|Hy]; [|now apply IH].
      apply (idx_lt_irrefl (fkey fst z)). eapply idx_lt_trans; [|exact L]. apply H2. apply in_or_app. right. now left. }
    assert (Hbet : forall j, idx_lt last j -> idx_lt j i -> want j = start j).
    { intros j L1 L2. apply not_all. rewrite Hall. intros X. apply in_map_iff in X as (y & E & X).
      apply in_app_or in X as [X|[X|X]].
      - apply (Hle y X). now rewrite E.
      - subst y. fold i in E. subst j. now apply (idx_lt_irrefl i).
      - apply Hafter in X. rewrite E in X. apply (idx_lt_irrefl i). eapply idx_lt_trans; eassumption. }
    assert (Hanc' : forall p, below p i -> In p (map fst brs)).
    { intros p B. destruct (Hanc p B) as (y & Hy & E). pose proof (Hle y Hy) as L. rewrite E in L.
      assert (Pl : prefix p last).
      { apply prefix_between with i; [|assumption|apply B]. destruct (idx_trichotomy p last) as [X|[X|X]]; auto. contradiction. }
      destruct (list_eq_dec (list_eq_dec ascii_dec) p last) as [->|N]; [|apply Hp; now split].
      destruct Hlast as [X|(N1 & N2)]; [assumption|]. exfalso.
      destruct (all_dirs e last Hin B) as [X|X]; congruence. }
    assert (Hinv' : inv (before i) brs t).
    { apply inv_weaken with (done := upto last); [assumption| |].
      - intros j _ D. unfold before, upto in *. destruct (idx_trichotomy last j) as [L|[L|L]].
        + right. split; [intros U; now apply U|]. now apply Hbet.
        + left. subst j. apply idx_lt_irrefl.
        + left. intros L'. apply (idx_lt_irrefl j). eapply idx_lt_trans; eassumption.
      - intros j _ D U. apply D. unfold before, upto in *. destruct (idx_trichotomy last j) as [L|[L|L]]; [contradiction|now subst|].
        eapply idx_lt_trans; eassumption. }
    exists (item_of e). rewrite filled_ok; [|assumption|].
    2:{ intros p E. assert (Ei : i = p) by (unfold i; now rewrite E). rewrite <- Ei.
        assert (Oi : opens root i t) by (eapply inv_opens; eassumption). split; [exact Oi|].
        destruct (i_at _ _ _ Hinv' i) as (_ & X). destruct X as (_ & _ & X); [|apply X, idx_lt_irrefl].
        intros Y. apply Hb in Y. destruct (prefix_le _ _ Y) as [L|L].
        - rewrite L in Hlt. now apply idx_lt_irrefl in Hlt.
        - apply (idx_lt_irrefl i). eapply idx_lt_trans; eassumption. }
    unfold rp_call. cbn [p_last p_tree p_brs p_fast p_flags]. rewrite item_of_key. fold i.
    replace (idx_cmp i last) with Gt by (symmetry; now apply idx_cmp_gt).
    destruct (finish_inv (before i) i brs t Hinv') as (brs' & t1 & -> & I1 & Hbrs').
    { intros b Y N. apply Hb in Y.
      assert (Lb : idx_lt b i).
      { destruct (prefix_le _ _ Y) as [->|L]; [assumption|]. eapply idx_lt_trans; eassumption. }
      split; [exact Lb|]. intros j (Pj & _). unfold before. destruct (idx_trichotomy j i) as [L|[L|L]]; [assumption| |].
      - subst j. contradiction.
      - exfalso. apply N. apply prefix_between with j; [now right|assumption|assumption]. }
    assert (Hnb : forall p, below p i -> In p (map fst brs')).
    { intros p B. apply Hbrs'. split; [now apply Hanc'|apply B]. }
    assert (Hbi : forall p, In p (map fst brs') -> below p i).
    { intros p Y. apply Hbrs' in Y as (Y & P). split; [assumption|]. intros ->. apply Hb in Y.
      destruct (prefix_le _ _ Y) as [L|L].
      - rewrite L in Hlt. now apply idx_lt_irrefl in Hlt.
      - apply (idx_lt_irrefl i). eapply idx_lt_trans; eassumption. }
    assert (Hni : ~ In i (map fst brs')). { intros Y. apply Hbi in Y. now apply (proj2 Y). }
    assert (Hroot' : In [] (map fst brs')). { apply Hbrs'. split; [assumption|now exists i]. }
    destruct brs' as [|br rest]; [destruct Hroot'|].
    assert (Oi : opens root i t1) by (eapply inv_opens; eassumption).
    rewrite can_fast_start by assumption. fold i.
    assert (Gi : get i (files t1) = start i).
    { destruct (i_at _ _ _ I1 i) as (_ & X). destruct (X Hni) as (_ & _ & Y). apply Y, idx_lt_irrefl. }
    assert (Ei : item_of e = (i, snd (item_of e))) by (unfold i; rewrite <- item_of_key; now destruct (item_of e)).
    destruct (negb (is_dir (snd (item_of e))) && negb (is_dir (start i))) eqn:Ef.
    + apply andb_true_iff in Ef as (F1 & F2). apply negb_true_iff in F1, F2.
      destruct (fast_kind e Hin F1) as (K1 & K2).
      destruct (item_fast (br :: rest) t1 i (snd (item_of e))) as (t2 & E2 & I2); auto.
      rewrite Ei. rewrite E2. eexists. split; [reflexivity|]. split; [reflexivity|]. 
      rewrite <- Ei, <- (app_nil_r (item_flags (item_of e))). change (item_flags (item_of e) ++ []) with (pre_flags [e]). rewrite <- pre_flags_app.
      unfold i. apply RI_run with (pre' := pre); auto; fold i; try assumption.
      * intros b Y. exact (proj1 (Hbi b Y)).
      * right. now apply fast_no_dir.
    + destruct (item_start (br :: rest) t1 i (snd (item_of e))) as (t2 & w & E2 & I2); try assumption.
      { now apply item_kind. }
      { destruct (is_dir (snd (item_of e))); [now left|]. destruct (is_dir (start i)); [now right|discriminate]. }
      rewrite Ei. rewrite E2. eexists. split; [reflexivity|]. split; [reflexivity|].
      rewrite <- Ei, <- (app_nil_r (item_flags (item_of e))). change (item_flags (item_of e) ++ []) with (pre_flags [e]). rewrite <- pre_flags_app.
      unfold i. apply RI_run with (pre' := pre); auto; fold i; change (map fst ((i, w) :: br :: rest)) with (i :: map fst (br :: rest)).
      * intros b [<-|Y]; [apply prefix_refl|]. exact (proj1 (Hbi b Y)).
      * intros p B. right. now apply Hnb.
      * right. assumption.
      * left. now left.
Qed.

Lemma run_all l : forall pre r, all = pre ++ l -> rinv pre r ->
  exists r', rp_items root now increments mir cached made l r = Some r' /\ rinv all r'.
Proof.
  induction l as [|e l IH]; intros pre r Hall H; cbn [rp_items].
  - rewrite app_nil_r in Hall. subst pre. eauto.
  - destruct (run_step pre e l r Hall H) as (x & r' & -> & -> & H').
    apply (IH (pre ++ [e])); [now rewrite <- app_assoc|assumption].
Qed.

Theorem rp_apply_spec : exists t', rp_apply root now increments mir cached made diffs t0 = Some (pre_flags all, t')
  /\ (forall i, get i (files t') = want i) /\ forall i, get i (temps t') = None.
Proof.
  unfold rp_apply. fold all. destruct (run_all all [] _ eq_refl (RI_start [] eq_refl)) as (r & -> & H).
  inversion H as [Hpre Er|x t Hpre Hx Hd1 Hd2 HT HF HF' Er|pre' x brs t Hpre Hinv Hb Hp Hroot Hlast Er]; subst r;
    unfold rp_finish_run; cbn [p_last p_tree p_fast p_brs p_flags].
  - exists t0. split; [now rewrite Hpre|]. split; [|intros i; now rewrite Htemps]. intros i. symmetry. apply not_all.
    rewrite Hpre. intros [].
  - exists t. split; [reflexivity|]. split; [|assumption]. intros i.
    destruct (list_eq_dec (list_eq_dec ascii_dec) i []) as [->|N]; [assumption|]. rewrite HF' by assumption. symmetry. apply not_all.
    rewrite Hpre. cbn [map]. rewrite Hx. intros [E|[]]. now symmetry in E.
  - assert (Hinv' : inv (fun _ => True) brs t).
    { apply inv_weaken with (done := upto (fkey fst x)); [assumption| |].
      - intros j _ _. destruct (idx_trichotomy (fkey fst x) j) as [L|[L|L]].
        + right. split; [intros U; now apply U|]. apply not_all. intros X. apply in_map_iff in X as (y & E & X).
          pose proof all_sorted as Hs. rewrite Hpre in Hs, X. apply in_app_or in X as [X|[X|[]]].
          * clear - Hs X E L. induction pre' as [|z p IH]; [destruct X|]. cbn [app] in Hs.
            apply sorted_inv in Hs as (H1 & H2). destruct X as [->|X]; [|now apply IH].
            apply (idx_lt_irrefl j). eapply idx_lt_trans; [|exact L]. rewrite <- E. apply H2. apply in_or_app. right. now left.
          * subst y j. now apply (idx_lt_irrefl (fkey fst x)).
        + left. subst j. apply idx_lt_irrefl.
        + left. intros L'. apply (idx_lt_irrefl j). eapply idx_lt_trans; eassumption.
      - tauto. }
    destruct (end_all_inv _ brs t Hinv' (fun _ => I)) as (t' & E & I'). exists t'. split; [now rewrite E|].
    split; intros j; destruct (i_at _ _ _ I' j) as (_ & X); destruct X as (X1 & X2 & _); auto.
Qed.

(** *** what is recorded *)
Hypothesis Hcached : forall i, differ same new old i -> is_dir (get i new) = true -> is_dir (get i old) = true -> cached i = true.
Hypothesis Hfaith : forall i n r, made i (Some n) = Some r -> r = Some n.
Lemma item_flags_key x n j : In (j, n) (item_flags x) -> j = fst x.
Proof.
  destruct x as [i d]. unfold item_flags. cbn [fst].
  destruct d as [[a|dd a]|]; destruct (is_dir (start i)); try destruct (cached i); try destruct (made i _) as [[r|]|];
    cbn [In]; intros H; repeat (destruct H as [[= <- _]|H]); try reflexivity; now destruct H.
Qed.

Lemma recorded_spec i : ~ unlisted (files t0) old i ->
  want i = recorded new old (pre_flags all) i
  \/ want i = option_map (opened root) (recorded new old (pre_flags all) i)
  \/ exists m t, recorded new old (pre_flags all) i = Some m /\ want i = Some (opened root t) /\ get i old = Some t /\ same m t = true.
Proof.
  intros Hu. unfold recorded. destruct (find (fun fl => idx_eqb (fst fl) i) (pre_flags all)) as [[j n]|] eqn:F.
  - apply find_some in F as (F & E). cbn [fst] in E. apply idx_eqb_eq in E. subst j.
    unfold pre_flags in F. apply in_flat_map in F as (e & He & F).
    pose proof (item_flags_key _ _ _ F) as K. destruct e as [[j d]|p]; cbn [item_of fst] in K, F; subst.
    + apply all_inl in He as (-> & D). rewrite (want_diff _ D). unfold item_flags in F. rewrite (differ_start _ D), opened_dir in F.
      unfold result. destruct (get j new) as [[a|dd a]|] eqn:G.
      * right. left. destruct (is_dir (get j old)); [destruct (cached j); [|destruct F]|]; destruct F as [[= <-]|[]]; reflexivity.
      * left. destruct (made j (Some (NOther dd a))) as [r|] eqn:M; [|destruct (is_dir (get j old)); destruct F].
        pose proof (Hfaith _ _ _ M) as ->.
        destruct (is_dir (get j old)); [destruct increments|]; destruct F as [[= <-]|[]]; reflexivity.
      * left. destruct (made j None) as [r|] eqn:M; [|destruct (is_dir (get j old)); destruct F].
        pose proof (Hgone _ _ M) as ->.
        destruct (is_dir (get j old)); [destruct increments|]; destruct F as [[= <-]|[]]; reflexivity.
    + apply all_inr in He as (D & Hd). destruct (filler_dir p D Hd) as (a & E1 & E2 & E3). right. right.
      unfold item_flags in F. rewrite E1 in F. cbn [is_dir] in F. destruct (cached p); [|destruct F]. destruct F as [[= <-]|[]].
      cbn [Nat.eqb]. unfold differ in D. rewrite E3 in D. destruct (get p new) as [m|]; [|now exfalso; apply D].
      exists m, (NDir a). split; [reflexivity|]. split; [exact E2|]. split; [exact E3|]. destruct (same m (NDir a)); congruence.
  - apply find_flag in F. destruct (differs same new old i) eqn:D.
    + apply differs_differ in D. pose proof (all_covers i D) as X. apply in_map_iff in X as (e & Ee & He).
      assert (Hf : item_flags (item_of e) = []).
      { destruct (item_flags (item_of e)) as [|[j n] l] eqn:X; [reflexivity|]. exfalso. apply F.
        assert (Hin : In (j, n) (item_flags (item_of e))) by (rewrite X; now left).
        pose proof (item_flags_key _ _ _ Hin) as K. rewrite item_of_key, Ee in K. subst j. apply in_map_iff. exists (i, n). split; [reflexivity|].
        unfold pre_flags. apply in_flat_map. eauto. }
      destruct e as [[j d]|p]; cbn [fkey fst item_of] in *; subst.
      * left. apply all_inl in He as (-> & _). rewrite (want_diff _ D). unfold item_flags in Hf. rewrite (differ_start _ D), opened_dir in Hf.
        unfold result. destruct (get i new) as [[a|dd a]|] eqn:G.
        -- destruct (is_dir (get i old)) eqn:O; [|discriminate]. rewrite Hcached in Hf; try assumption; [discriminate|]. now rewrite G.
        -- destruct (made i (Some (NOther dd a))) as [[r|]|]; [| |reflexivity]; destruct (is_dir (get i old)); discriminate.
        -- destruct (made i None) as [[r|]|]; [| |reflexivity]; destruct (is_dir (get i old)); discriminate.
      * apply all_inr in He as (He & _). contradiction.
    + assert (D' : ~ differ same new old i) by (rewrite <- differs_differ; congruence). rewrite (want_same _ D'). unfold start. right. left.
      destruct (get i old) as [t|] eqn:E; [now apply Hlist|]. destruct (get i (files t0)) as [n|] eqn:E1; [|reflexivity].
      exfalso. apply Hu. split; congruence.
Qed.

Hypothesis Heq : forall m t, same m t = true -> m = t.

(** what is recorded is what was to be done, where it was done *)
Lemma recorded_val i : recorded new old (pre_flags all) i =
  if differs same new old i then
    match get i new with
    | Some (NDir a) => Some (NDir a)
    | n => match made i n with Some r => r | None => get i old end
    end
  else get i old.
Proof.
  unfold recorded. destruct (find (fun fl => idx_eqb (fst fl) i) (pre_flags all)) as [[j n]|] eqn:F.
  - apply find_some in F as (F & E). cbn [fst] in E. apply idx_eqb_eq in E. subst j.
    unfold pre_flags in F. apply in_flat_map in F as (e & He & F).
    pose proof (item_flags_key _ _ _ F) as K. destruct e as [[j d]|p]; cbn [item_of fst] in K, F; subst.
    + apply all_inl in He as (-> & D). unfold item_flags in F. rewrite (differ_start _ D), opened_dir in F.
      apply differs_differ in D. rewrite D. destruct (get j new) as [[a|dd a]|] eqn:G.
      * destruct (is_dir (get j old)); [destruct (cached j); [|destruct F]|]; destruct F as [[= <-]|[]]; reflexivity.
      * destruct (made j (Some (NOther dd a))) as [r|] eqn:M; [|destruct (is_dir (get j old)); destruct F].
        pose proof (Hfaith _ _ _ M) as ->.
        destruct (is_dir (get j old)); [destruct increments|]; destruct F as [[= <-]|[]]; reflexivity.
      * destruct (made j None) as [r|] eqn:M; [|destruct (is_dir (get j old)); destruct F].
        pose proof (Hgone _ _ M) as ->.
        destruct (is_dir (get j old)); [destruct increments|]; destruct F as [[= <-]|[]]; reflexivity.
    + apply all_inr in He as (D & Hd). destruct (filler_dir p D Hd) as (a & E1 & E2 & E3).
      unfold item_flags in F. rewrite E1 in F. cbn [is_dir] in F. destruct (cached p); [|destruct F]. destruct F as [[= <-]|[]].
      cbn [Nat.eqb]. destruct (differs same new old p) eqn:Df; [apply differs_differ in Df; contradiction|].
      unfold differs in Df. rewrite E3 in *. destruct (get p new) as [m|]; [|discriminate]. apply negb_false_iff in Df. now apply Heq in Df as ->.
  - apply find_flag in F. destruct (differs same new old i) eqn:D; [|reflexivity].
    apply differs_differ in D. pose proof (all_covers i D) as X. apply in_map_iff in X as (e & Ee & He).
    assert (Hf : item_flags (item_of e) = []).
    { destruct (item_flags (item_of e)) as [|[j n] l] eqn:X; [reflexivity|]. exfalso. apply F.
      assert (Hin : In (j, n) (item_flags (item_of e))) by (rewrite X; now left).
      pose proof (item_flags_key _ _ _ Hin) as K. rewrite item_of_key, Ee in K. subst j. apply in_map_iff. exists (i, n). split; [reflexivity|].
      unfold pre_flags. apply in_flat_map. eauto. }
    destruct e as [[j d]|p]; cbn [fkey fst item_of] in *; subst.
    + apply all_inl in He as (-> & _). unfold item_flags in Hf. rewrite (differ_start _ D), opened_dir in Hf.
      destruct (get i new) as [[a|dd a]|] eqn:G.
      * destruct (is_dir (get i old)) eqn:O; [|discriminate]. rewrite Hcached in Hf; try assumption; [discriminate|]. now rewrite G.
      * destruct (made i (Some (NOther dd a))) as [[r|]|]; [| |reflexivity]; destruct (is_dir (get i old)); discriminate.
      * destruct (made i None) as [[r|]|]; [| |reflexivity]; destruct (is_dir (get i old)); discriminate.
    + apply all_inr in He as (He & _). contradiction.
Qed.
End Run.

Lemma pair_path_key p : pair_path p = pair_key fst fst p.
Proof. now destruct p as [[x|] [y|]]. Qed.

Lemma new_metadata_sorted source mirror flags : sorted_by fst source -> sorted_by fst mirror ->
  sorted_by fst (new_metadata source mirror flags).
Proof.
  intros H1 H2. unfold new_metadata. pose proof (collate2_sorted fst fst source mirror H1 H2) as H.
  induction (collate2 fst fst source mirror) as [|p l IH]; [constructor|]. cbn [flat_map]. apply sorted_inv in H as (Ha & Hb).
  specialize (IH Ha). destruct (recorded source mirror flags (pair_path p)) as [n|]; [|exact IH].
  cbn [app]. apply sorted_cons; [assumption|]. intros y Hy. apply in_flat_map in Hy as (q & Hq & Hy).
  destruct (recorded source mirror flags (pair_path q)) as [m|]; [|destruct Hy]. destruct Hy as [<-|[]]. cbn [fst].
  rewrite !pair_path_key. now apply Hb.
Qed.

Lemma new_metadata_get source mirror flags i : sorted_by fst source -> sorted_by fst mirror ->
  get i (new_metadata source mirror flags) = match get i source, get i mirror with None, None => None | _, _ => recorded source mirror flags i end.
Proof.
  intros H1 H2. pose proof (new_metadata_sorted source mirror flags H1 H2) as Hs.
  assert (Hin : forall n, In (i, n) (new_metadata source mirror flags) <->
    recorded source mirror flags i = Some n /\ (get i source <> None \/ get i mirror <> None)).
  { intros n. unfold new_metadata. rewrite in_flat_map. split.
    - intros (p & Hp & Hn). pose proof (collate2_sound _ _ _ _ _ Hp) as X.
      destruct (recorded source mirror flags (pair_path p)) as [m|] eqn:R; [|destruct Hn]. destruct Hn as [[= <- <-]|[]].
      split; [assumption|]. destruct p as [[[j a]|] [[k b]|]]; cbn [pair_path fst].
      + left. destruct X as (X & _). now apply in_get in X.
      + left. now apply in_get in X.
      + right. now apply in_get in X.
      + destruct X.
    - intros (R & X). assert (Y : exists p, In p (collate2 fst fst source mirror) /\ pair_path p = i).
      { destruct (get i source) as [a|] eqn:E1.
        - apply sorted_get in E1; [|assumption].
          destruct (collate2_complete_l fst fst source mirror (i, a) H1 H2 E1) as [(y & Hy & E & Z)|(_ & Z)]; eexists; split; try exact Z; reflexivity.
        - destruct X as [X|X]; [congruence|]. destruct (get i mirror) as [b|] eqn:E2; [|congruence]. apply sorted_get in E2; [|assumption].
          destruct (collate2_complete_r fst fst source mirror (i, b) H1 H2 E2) as [(y & Hy & E & Z)|(_ & Z)]; eexists; split; try exact Z; [|reflexivity].
          cbn [pair_path]. rewrite E. reflexivity. }
      destruct Y as (p & Hp & E). exists p. split; [assumption|]. rewrite E, R. now left. }
  destruct (get i (new_metadata source mirror flags)) as [n|] eqn:G.
  - apply sorted_get in G; [|assumption]. apply Hin in G as (R & X). rewrite R.
    destruct (get i source), (get i mirror); try reflexivity. destruct X; congruence.
  - destruct (get i source) as [a|] eqn:E1; [|destruct (get i mirror) as [b|] eqn:E2; [|reflexivity]].
    + destruct (recorded source mirror flags i) as [n|] eqn:R; [|reflexivity]. exfalso.
      assert (X : In (i, n) (new_metadata source mirror flags)) by (apply Hin; split; [reflexivity|left; congruence]).
      apply sorted_get in X; [|assumption]. congruence.
    + destruct (recorded source mirror flags i) as [n|] eqn:R; [|reflexivity]. exfalso.
      assert (X : In (i, n) (new_metadata source mirror flags)) by (apply Hin; split; [reflexivity|right; congruence]).
      apply sorted_get in X; [|assumption]. congruence.
Qed.
