From Coq Require Import List ZArith Bool Ascii Lia Sorted.
From Verif Require Import Base M_Iter L_Iter L_Tree M_TreeFs L_TreeFs M_DirPatch S_DirPatch.
Import List ListNotations.
Local Open Scope Z_scope.

(** ** listings as maps *)
Lemma sorted_unique {A} (key : A -> idx) l x y : sorted_by key l -> In x l -> In y l -> key x = key y -> x = y.
Proof.
  induction l as [|z l IH]; intros H Hx Hy E; [destruct Hx|]. apply sorted_inv in H as [H1 H2].
  destruct Hx as [<-|Hx], Hy as [<-|Hy]; auto.
  - exfalso. apply (idx_lt_irrefl (key z)). rewrite E at 2. now apply H2.
  - exfalso. apply (idx_lt_irrefl (key z)). rewrite <- E at 2. now apply H2.
Qed.

Lemma sorted_get (l : list entry) i n : sorted_by fst l -> (In (i, n) l <-> get i l = Some n).
Proof.
  intros H. split; [|apply get_in]. intros Hin. destruct (get i l) as [m|] eqn:E.
  - apply get_in in E. f_equal. now injection (sorted_unique fst l (i, m) (i, n) H E Hin eq_refl).
  - exfalso. now apply (in_get i l n) in Hin.
Qed.

Section Diffs.
Variable same : node -> node -> bool.
Variables new old : list entry.
Hypothesis Hnew : sorted_by fst new.
Hypothesis Hold : sorted_by fst old.

Definition differ (i : idx) : Prop :=
  match get i new, get i old with
  | Some m, Some t => same m t = false
  | None, None => False
  | _, _ => True
  end.

Lemma no_key (l : list entry) i : (forall y : entry, In y l -> fst y <> i) <-> get i l = None.
Proof.
  split.
  - intros H. destruct (get i l) as [n|] eqn:E; [|reflexivity]. apply get_in in E. now apply H in E.
  - intros H [j n] Hy E. cbn [fst] in E. subst j. now apply in_get in Hy.
Qed.

Lemma diffs_spec i d : In (i, d) (get_diffs same new old) <-> d = get i new /\ differ i.
Proof using Hnew Hold.
  unfold get_diffs, differ. rewrite in_flat_map. split.
  - intros (p & Hp & Hd). pose proof (collate2_sound _ _ _ _ _ Hp) as Hs.
    destruct p as [[[j m]|] [[k t]|]]; cbn [diff_of fst] in *.
    + destruct Hs as (H1 & H2 & E). subst k. apply sorted_get in H1, H2; try assumption.
      destruct (same m t) eqn:E; [destruct Hd|]. destruct Hd as [[= <- <-]|[]].
      rewrite H1, H2. split; [reflexivity|assumption].
    + destruct Hd as [[= <- <-]|[]].
      assert (H1 := Hs). apply sorted_get in H1; [|assumption]. rewrite H1. split; [reflexivity|].
      destruct (collate2_complete_l fst fst new old (j, m) Hnew Hold Hs) as [(y & Hy & E & Hin)|(Hn & _)].
      * exfalso. pose proof (sorted_unique _ _ _ _ (collate2_sorted fst fst new old Hnew Hold) Hp Hin eq_refl). discriminate.
      * cbn [fst] in Hn. apply no_key in Hn. now rewrite Hn.
    + destruct Hd as [[= <- <-]|[]].
      assert (H1 := Hs). apply sorted_get in H1; [|assumption]. rewrite H1.
      destruct (collate2_complete_r fst fst new old (k, t) Hnew Hold Hs) as [([x m] & Hx & E & Hin)|(Hn & _)].
      * exfalso. cbn [fst] in E.
        pose proof (sorted_unique _ _ _ _ (collate2_sorted fst fst new old Hnew Hold) Hp Hin) as U.
        cbn [pair_key fst] in U. symmetry in E. apply U in E. discriminate.
      * cbn [fst] in Hn. apply no_key in Hn. rewrite Hn. split; [reflexivity|exact I].
    + destruct Hs.
  - intros (-> & H). destruct (get i new) as [m|] eqn:E1.
    + apply sorted_get in E1; [|assumption].
      destruct (collate2_complete_l fst fst new old (i, m) Hnew Hold E1) as [([k t] & Hy & E & Hin)|(Hn & Hin)].
      * cbn [fst] in E. subst k. exists (Some (i, m), Some (i, t)). split; [assumption|]. cbn [diff_of].
        apply sorted_get in Hy; [|assumption]. rewrite Hy in H. rewrite H. now left.
      * exists (Some (i, m), None). split; [assumption|]. now left.
    + destruct (get i old) as [t|] eqn:E2; [|destruct H]. apply sorted_get in E2; [|assumption].
      destruct (collate2_complete_r fst fst new old (i, t) Hnew Hold E2) as [([k m] & Hx & E & Hin)|(Hn & Hin)].
      * cbn [fst] in E. subst k. apply sorted_get in Hx; [|assumption]. congruence.
      * exists (None, Some (i, t)). split; [assumption|]. now left.
Qed.

Lemma diff_of_key p x : In x (diff_of same p) -> fst x = pair_key fst fst p.
Proof.
  destruct p as [[[j m]|] [[k t]|]]; cbn [diff_of pair_key fst].
  - destruct (same m t); [intros []|]. now intros [<-|[]].
  - now intros [<-|[]].
  - now intros [<-|[]].
  - intros [].
Qed.

Lemma diffs_sorted : sorted_by fst (get_diffs same new old).
Proof using Hnew Hold.
  unfold get_diffs. pose proof (collate2_sorted fst fst new old Hnew Hold) as H.
  induction (collate2 fst fst new old) as [|p l IH]; [constructor|]. cbn [flat_map].
  apply sorted_inv in H as [H1 H2]. specialize (IH H1).
  assert (Hl : forall x y, In x (diff_of same p) -> In y (flat_map (diff_of same) l) -> idx_lt (fst x) (fst y)).
  { intros x y Hx Hy. apply in_flat_map in Hy as (q & Hq & Hy). apply diff_of_key in Hx, Hy. rewrite Hx, Hy. now apply H2. }
  destruct (diff_of same p) as [|x [|y r]] eqn:E; [exact IH| |].
  - cbn [app]. apply sorted_cons; [assumption|]. intros y Hy. apply Hl; [now left|assumption].
  - exfalso. destruct p as [[[j m]|] [[k t]|]]; cbn [diff_of] in E; try discriminate. now destruct (same m t).
Qed.
End Diffs.

Lemma tree_below (l : list entry) d i n : a_tree l -> get i l = Some n -> below d i -> is_dir (get d l) = true.
Proof.
  intros T G ([r ->] & N). revert n G N. induction r as [|c r IH] using rev_ind; intros n G N.
  - now rewrite app_nil_r in N.
  - rewrite app_assoc in G. apply T in G as (a & Ha). destruct r as [|c' r]; [rewrite app_nil_r in Ha; now rewrite Ha|].
    apply (IH _ Ha). intros E. apply (f_equal (@length _)) in E. rewrite app_length in E. cbn in E. lia.
Qed.
Lemma changed_self i n t : get i (files t) = n -> changed i n t t.
Proof. intros H. split; [assumption|]. split; [auto|]. intros _ a Ha. exists a. split; [assumption|reflexivity]. Qed.
Lemma temp_same i t t' : temps t' = temps t -> temp_is i (get i (temps t)) t t'.
Proof. intros E. unfold temp_is. rewrite E. split; reflexivity. Qed.
Lemma below_app d i : below d i -> exists c r, i = d ++ c :: r.
Proof. intros ([r ->] & N). destruct r as [|c r]; [now rewrite app_nil_r in N|eauto]. Qed.
Lemma app_below (d : idx) c r : below d (d ++ c :: r).
Proof. split; [now exists (c :: r)|]. intros E. apply (f_equal (@length _)) in E. rewrite app_length in E. cbn in E. lia. Qed.

(** ** the run *)
Section Run.
Variable root : bool.
Variable now : idx -> Z.
Variable same : node -> node -> bool.
Variables new old : list entry.
Variable t0 : tree.
Hypothesis Hnew : sorted_by fst new.
Hypothesis Hold : sorted_by fst old.
Hypothesis Tnew : a_tree new.
Hypothesis Told : a_tree old.
Hypothesis T0 : a_tree (files t0).
Hypothesis Hlist : forall i n, get i old = Some n -> get i (files t0) = Some n.
Hypothesis Hhid : forall i, unlisted (files t0) old i -> get i new = None.
Hypothesis Hkeep : forall d c, unlisted (files t0) old (d ++ [c]) -> get d old <> None -> is_dir (get d new) = true.
Hypothesis Htemps : temps t0 = [].
Hypothesis Hsame : forall m t, same m t = true -> is_dir (Some m) = is_dir (Some t).

Let want := wanted same (files t0) new old.
Let start (i : idx) := get i (files t0).
Let diffs := get_diffs same new old.

Lemma want_same i : ~ differ same new old i -> want i = start i.
Proof.
  unfold want, wanted, start, differ. destruct (get i new) as [m|], (get i old) as [t|] eqn:E; intros H.
  - destruct (same m t); [|congruence]. symmetry. now apply Hlist.
  - now exfalso.
  - now exfalso.
  - reflexivity.
Qed.

Lemma want_diff i : differ same new old i -> want i = get i new.
Proof.
  unfold want, wanted, differ. destruct (get i new) as [m|], (get i old) as [t|]; intros H; try reflexivity; [|destruct H].
  now rewrite H.
Qed.

Lemma want_dir_new i : is_dir (get i new) = true -> is_dir (want i) = true.
Proof.
  unfold want, wanted. destruct (get i new) as [m|]; [|discriminate]. destruct (get i old) as [t|]; [|auto].
  destruct (same m t) eqn:E; [|auto]. now rewrite (Hsame _ _ E).
Qed.

Lemma want_tree d c : is_dir (want d) = false -> want (d ++ [c]) = None.
Proof.
  intros H. destruct (want (d ++ [c])) as [n|] eqn:E; [|reflexivity]. exfalso.
  assert (Hn : is_dir (get d new) = false).
  { destruct (is_dir (get d new)) eqn:E1; [|reflexivity]. apply want_dir_new in E1. congruence. }
  unfold want, wanted in E. destruct (get (d ++ [c]) new) as [m|] eqn:E1.
  - apply Tnew in E1 as (a & E1). now rewrite E1 in Hn.
  - destruct (get (d ++ [c]) old) as [t|] eqn:E2; [discriminate|].
    assert (U : unlisted (files t0) old (d ++ [c])) by (split; congruence).
    destruct (get d old) as [t|] eqn:E3.
    + rewrite (Hkeep d c U) in Hn; [discriminate|congruence].
    + destruct (T0 _ _ _ E) as (a & Ha).
      assert (Hd : get d new = None) by (apply Hhid; split; congruence).
      unfold want, wanted in H. rewrite Hd, E3, Ha in H. discriminate.
Qed.


Lemma differ_dirs i d : differ same new old i -> below d i -> is_dir (get d new) = true \/ is_dir (get d old) = true.
Proof.
  unfold differ. intros H B. destruct (get i new) as [m|] eqn:E1.
  - left. eapply tree_below; eauto.
  - destruct (get i old) as [t|] eqn:E2; [|destruct H]. right. eapply tree_below; eauto.
Qed.

(** a path filled in is an unchanged directory *)
Lemma filler_dir p : ~ differ same new old p -> (is_dir (get p new) = true \/ is_dir (get p old) = true) ->
  exists a, start p = Some (NDir a) /\ want p = Some (NDir a).
Proof.
  intros H D. rewrite (want_same p H). unfold differ in H. unfold start.
  destruct (get p new) as [m|], (get p old) as [t|] eqn:E; try now exfalso; auto.
  - apply Hlist in E. rewrite E. destruct (same m t) eqn:S; [|congruence]. rewrite (Hsame _ _ S) in D.
    destruct t as [a|d a]; [|now destruct D]. exists a. split; reflexivity.
  - destruct D; discriminate.
Qed.

(** *** invariant *)
Definition at_path (done : idx -> Prop) (brs : list (idx * what)) (t : tree) (j : idx) : Prop :=
  (forall w, In (j, w) brs ->
     open_dir root (get j (files t))
     /\ match w with
        | Update a => want j = Some (NDir a) /\ get j (temps t) = None
        | Replace => is_dir (want j) = false /\ get j (temps t) = want j
        end)
  /\ (~ In j (map fst brs) ->
      get j (temps t) = None /\ (done j -> get j (files t) = want j) /\ (~ done j -> get j (files t) = start j)).

Record inv (done : idx -> Prop) (brs : list (idx * what)) (t : tree) : Prop := {
  i_chain : chain_st (map fst brs);
  i_up : forall b p, In b (map fst brs) -> prefix p b -> In p (map fst brs);
  i_at : forall j, at_path done brs t j }.

Lemma inv_opens done brs t i : inv done brs t -> (forall p, below p i -> In p (map fst brs)) -> opens root i t.
Proof.
  intros H Hp p B. apply Hp in B. apply in_map_iff in B as ([q w] & E & B). cbn [fst] in E. subst q.
  destruct (i_at _ _ _ H p) as (A & _). now apply (A w).
Qed.

(** what happens at [i] leaves the other paths as they are *)
Lemma at_others done brs t t' i n m j : inv done brs t -> (forall p, below p i -> In p (map fst brs)) ->
  changed i n t t' -> temp_is i m t t' -> j <> i -> at_path done brs t' j.
Proof.
  intros H Hp (C1 & C2 & C3) (D1 & D2) Hj. destruct (i_at _ _ _ H j) as (A1 & A2).
  destruct (list_eq_dec (list_eq_dec ascii_dec) i []) as [->|Hi].
  - split; unfold open_dir in *; rewrite C2, D2 by auto; assumption.
  - destruct (list_eq_dec (list_eq_dec ascii_dec) j (removelast i)) as [->|N].
    + split.
      * intros w Hw. destruct (A1 w Hw) as ((a & Ha & P) & A). split.
        -- destruct (C3 Hi a Ha) as (a' & H' & P'). exists a'. split; [assumption|now rewrite P'].
        -- rewrite D2 by auto. assumption.
      * intros Hn. exfalso. apply Hn, Hp. now apply removelast_below.
    + split; unfold open_dir in *; rewrite C2, D2 by auto; assumption.
Qed.



Lemma end_inv done b w brs t : inv done ((b, w) :: brs) t -> done b -> (forall j, below b j -> done j) ->
  exists t', end_dir root now b w t = Some t' /\ inv done brs t'.
Proof.
  intros H Db Dj. destruct H as [Hc Hu Ha]. cbn [map fst] in *.
  assert (Hnb : ~ In b (map fst brs)).
  { intros Hb. now apply (chain_all _ _ Hc) in Hb. }
  assert (Hup : forall p, below p b -> In p (map fst brs)).
  { intros p (P & N). destruct (Hu b p) as [E|E]; [now left|assumption|congruence|assumption]. }
  assert (Hop : opens root b t).
  { intros p B. apply Hup in B. apply in_map_iff in B as ([q w'] & E & B). cbn [fst] in E. subst q.
    destruct (Ha p) as (A & _). apply (A w'). now right. }
  assert (Hchain : chain_st (map fst brs)) by now apply chain_tail in Hc.
  assert (Hu' : forall b0 p, In b0 (map fst brs) -> prefix p b0 -> In p (map fst brs)).
  { intros b0 p Hb0 P. destruct (Hu b0 p) as [E|E]; [now right|assumption| |assumption].
    subst p. destruct (chain_all _ _ Hc b0 Hb0) as (P' & N). exfalso. apply N. now apply prefix_antisym. }
  destruct (Ha b) as (A1 & _). destruct (A1 w (or_introl eq_refl)) as ((a0 & G & P0) & A). clear A1.
  assert (Hmid : forall t' m n, changed b n t t' -> temp_is b m t t' -> n = want b -> m = None -> inv done brs t').
  { intros t' m n C D -> ->. split; [assumption|assumption|]. intros j.
    destruct (list_eq_dec (list_eq_dec ascii_dec) j b) as [->|N].
    - split; [intros w' Hw'; exfalso; apply Hnb; apply in_map_iff; now exists (b, w')|]. intros _.
      destruct C as (C & _). destruct D as (D & _). rewrite C, D. repeat split. intros Hd. now exfalso.
    - assert (X : at_path done ((b, w) :: brs) t' j).
      { eapply at_others; [split; eassumption| |exact C|exact D|assumption]. intros p B. cbn [map fst]. right. now apply Hup. }
      destruct X as (X1 & X2). split.
      + intros w' Hw'. apply X1. now right.
      + intros Hn. apply X2. cbn [map fst]. intros [E|E]; [congruence|contradiction]. }
  destruct w as [a|]; cbn [end_dir].
  - destruct A as (A1 & A2). destruct (set_attribs_ok root b a0 a t Hop G) as (t' & E & C & D). exists t'. split; [assumption|].
    eapply Hmid; [exact C|apply temp_same; exact D|now symmetry|assumption].
  - destruct A as (A1 & A2).
    assert (Hch : forall c, get (b ++ [c]) (files t) = None /\ get (b ++ [c]) (temps t) = None).
    { intros c. destruct (Ha (b ++ [c])) as (_ & X). destruct X as (X1 & X2 & _).
      - cbn [map fst]. intros [E|E].
        + apply (f_equal (@length _)) in E. rewrite app_length in E. cbn in E. lia.
        + apply (chain_all _ _ Hc) in E as ([r E] & _). apply (f_equal (@length _)) in E. rewrite !app_length in E. cbn in E. lia.
      - split; [|assumption]. rewrite X2; [|apply Dj, app_below]. now apply want_tree. }
    destruct (rmdir_ok root now b a0 t Hop G) as (t1 & E & C & D); [apply Hch|apply Hch|]. rewrite E.
    destruct (get b (temps t1)) as [n|] eqn:E1.
    + destruct (rename_temp_ok root now b n t1) as (t2 & E2 & C2 & D2); [eapply changed_opens; eauto|assumption|now destruct C as (-> & _)|].
      exists t2. split; [assumption|]. eapply Hmid; [eapply changed_trans; [exact C|exact C2]|eapply temp_trans; [apply temp_same; exact D|exact D2]| |reflexivity].
      rewrite D in E1. congruence.
    + exists t1. split; [reflexivity|]. eapply Hmid; [exact C|apply temp_same; exact D| |].
      * rewrite D in E1. congruence.
      * rewrite D in E1. assumption.
Qed.

Lemma finish_inv done x brs : forall t, inv done brs t ->
  (forall b, In b (map fst brs) -> ~ prefix b x -> done b /\ forall j, below b j -> done j) ->
  exists brs' t', finish root now x brs t = Some (brs', t') /\ inv done brs' t'
    /\ forall b, In b (map fst brs') <-> In b (map fst brs) /\ prefix b x.
Proof.
  induction brs as [|[b w] brs IH]; intros t H Hd; cbn [finish].
  - exists [], t. split; [reflexivity|]. split; [assumption|]. intros b. cbn [map In]. tauto.
  - destruct (is_prefix b x) eqn:E.
    + exists ((b, w) :: brs), t. split; [reflexivity|]. split; [assumption|]. intros b'. split; [|tauto].
      intros Hb. split; [assumption|]. apply is_prefix_spec in E. cbn [map fst] in Hb. destruct Hb as [<-|Hb]; [assumption|].
      pose proof (i_chain _ _ _ H) as Hc. cbn [map fst] in Hc. apply (chain_all _ _ Hc) in Hb as (P & _).
      eapply prefix_trans; eassumption.
    + assert (N : ~ prefix b x) by (rewrite <- is_prefix_spec; congruence).
      destruct (Hd b (or_introl eq_refl) N) as (D1 & D2).
      destruct (end_inv _ _ _ _ _ H D1 D2) as (t1 & -> & H1).
      destruct (IH t1 H1) as (brs' & t' & E' & H' & Hb').
      { intros b' Hb'. apply Hd. now right. }
      exists brs', t'. split; [assumption|]. split; [assumption|]. intros b'. rewrite Hb'. change (map fst ((b, w) :: brs)) with (b :: map fst brs). cbn [In].
      split; [tauto|]. intros ([E1|E1] & P); [subst b'; contradiction|tauto].
Qed.

Lemma end_all_inv done brs : forall t, inv done brs t -> (forall j, done j) ->
  exists t', end_all root now brs t = Some t' /\ inv done [] t'.
Proof.
  induction brs as [|[b w] brs IH]; intros t H Hd; cbn [end_all].
  - exists t. split; [reflexivity|assumption].
  - destruct (end_inv _ _ _ _ _ H (Hd b) (fun j _ => Hd j)) as (t1 & -> & H1). now apply IH.
Qed.

(** one item: everything before [i] done, all directories above open *)
Definition before (i j : idx) : Prop := idx_lt j i.
Definition upto (i j : idx) : Prop := ~ idx_lt i j.

Lemma item_fast brs t i d : inv (before i) brs t -> (forall p, below p i -> In p (map fst brs)) ->
  ~ In i (map fst brs) -> want i = d -> is_dir d = false -> is_dir (start i) = false ->
  (d = None -> start i <> None) ->
  exists t', fast_file root now (i, d) t = Some t' /\ inv (upto i) brs t'.
Proof.
  intros H Hp Hi Hw Hd Hs Hne. pose proof (inv_opens _ _ _ _ H Hp) as Hop.
  destruct (i_at _ _ _ H i) as (_ & X). destruct (X Hi) as (T & _ & F). specialize (F (idx_lt_irrefl i)).
  assert (Hfin : forall t' , changed i d t t' -> temp_is i None t t' -> inv (upto i) brs t').
  { intros t' C D. split; [apply H|apply H|]. intros j. destruct (list_eq_dec (list_eq_dec ascii_dec) j i) as [->|N].
    - split; [intros w Hw'; exfalso; apply Hi, in_map_iff; now exists (i, w)|]. intros _.
      destruct C as (C & _), D as (D & _). rewrite C, D. repeat split; [congruence|]. intros Hd'. exfalso. apply Hd', idx_lt_irrefl.
    - destruct (at_others _ _ _ _ _ _ _ _ H Hp C D N) as (X1 & X2). split; [assumption|]. intros Hj.
      destruct (X2 Hj) as (Y1 & Y2 & Y3). split; [assumption|]. split.
      + intros Hu. apply Y2. unfold before. destruct (idx_trichotomy j i) as [L|[L|L]]; [assumption|congruence|contradiction].
      + intros Hu. apply Y3. unfold before, upto in *. intros L. apply Hu. intros L'.
        apply (idx_lt_irrefl i). eapply idx_lt_trans; eassumption. }
  unfold fast_file. cbn [fst snd]. destruct d as [n|].
  - destruct (write_temp_ok root now i n t Hop T) as (t1 & -> & C1 & D1).
    destruct (rename_temp_ok root now i n t1) as (t2 & E2 & C2 & D2).
    + eapply changed_opens; eauto.
    + apply D1.
    + destruct C1 as (-> & _). now rewrite F.
    + exists t2. split; [assumption|]. apply Hfin; [eapply changed_trans; eauto|eapply temp_trans; eauto].
  - rewrite <- F in Hs, Hne. destruct (get i (files t)) as [[a|dd a]|] eqn:G; [discriminate| |exfalso; now apply Hne].
    destruct (unlink_ok root now i dd a t Hop G) as (t1 & E & C & D). exists t1. split; [assumption|].
    apply Hfin; [assumption|]. rewrite <- T. now apply temp_same.
Qed.

Lemma item_start brs t i d : inv (before i) brs t -> (forall p, below p i -> In p (map fst brs)) ->
  (forall p, In p (map fst brs) -> below p i) -> want i = d -> (is_dir d = true \/ is_dir (start i) = true) ->
  exists t' w, start_dir root now (i, d) t = Some (w, t') /\ inv (upto i) ((i, w) :: brs) t'.
Proof.
  intros H Hp Hb Hw Hor. pose proof (inv_opens _ _ _ _ H Hp) as Hop.
  assert (Hi : ~ In i (map fst brs)). { intros Hi. apply Hb in Hi. now apply (proj2 Hi). }
  destruct (i_at _ _ _ H i) as (_ & X). destruct (X Hi) as (T & _ & F). specialize (F (idx_lt_irrefl i)).
  assert (Hfin : forall t' w a m, changed i (Some (NDir a)) t t' -> a_perms a = 448 -> temp_is i m t t' ->
    match w with Update a => want i = Some (NDir a) /\ m = None | Replace => is_dir (want i) = false /\ m = want i end ->
    inv (upto i) ((i, w) :: brs) t').
  { intros t' w a m C P D W. split.
    - cbn [map fst]. pose proof (i_chain _ _ _ H) as Hc. destruct brs as [|[b w'] brs']; [constructor|].
      cbn [map fst] in *. destruct (Hb b (or_introl eq_refl)). now constructor.
    - cbn [map fst]. intros b p [<-|Hin] Pp.
      + destruct (list_eq_dec (list_eq_dec ascii_dec) p i) as [->|N]; [now left|]. right. apply Hp. now split.
      + right. eapply (i_up _ _ _ H); eassumption.
    - intros j. destruct (list_eq_dec (list_eq_dec ascii_dec) j i) as [->|N].
      + split; [|intros N; exfalso; apply N; now left]. intros w' [[= <-]|Hw'].
        * destruct C as (C & _), D as (D & _). split; [now apply (open_448 root a)|]. rewrite D. assumption.
        * exfalso. apply Hi, in_map_iff. now exists (i, w').
      + destruct (at_others _ _ _ _ _ _ _ _ H Hp C D N) as (X1 & X2). split.
        * intros w' [[= E _]|Hw']; [congruence|]. now apply X1.
        * cbn [map fst]. intros Hj. assert (Hj' : ~ In j (map fst brs)) by (intros Y; apply Hj; now right).
          destruct (X2 Hj') as (Y1 & Y2 & Y3). split; [assumption|]. split.
          -- intros Hu. apply Y2. unfold before. destruct (idx_trichotomy j i) as [L|[L|L]]; [assumption|congruence|contradiction].
          -- intros Hu. apply Y3. unfold before, upto in *. intros L. apply Hu. intros L'.
             apply (idx_lt_irrefl i). eapply idx_lt_trans; eassumption. }
  unfold start_dir, stat. rewrite reachable_open by assumption. rewrite F.
  replace (is_dir d || is_dir (start i) || idx_eqb i []) with true.
  2:{ destruct Hor as [-> | ->]; [reflexivity|]. now rewrite orb_true_r. }
  destruct d as [[a|dd a]|].
  - unfold prepare_dir. rewrite <- F. destruct (get i (files t)) as [[a0|dd a0]|] eqn:G.
    + destruct (chmod700_ok root i a0 t Hop G) as (t1 & a1 & -> & C & P & _ & _ & D). exists t1, (Update a). split; [reflexivity|].
      eapply Hfin; [exact C|assumption|apply temp_same; exact D|]. split; assumption.
    + destruct (unlink_ok root now i dd a0 t Hop G) as (t1 & -> & C1 & D1).
      destruct (mkdir_ok root now i t1) as (t2 & a2 & -> & C2 & P2 & D2); [eapply changed_opens; eauto|apply C1|].
      destruct (chmod700_ok root i a2 t2) as (t3 & a3 & -> & C3 & P3 & _ & _ & D3).
      * eapply changed_opens; [|exact C2]. eapply changed_opens; eauto.
      * apply C2.
      * exists t3, (Update a). split; [reflexivity|].
        eapply Hfin; [eapply changed_trans; [exact C1|eapply changed_trans; [exact C2|exact C3]]|assumption|apply temp_same; congruence|].
        split; assumption.
    + destruct (mkdir_ok root now i t Hop G) as (t2 & a2 & -> & C2 & P2 & D2).
      destruct (chmod700_ok root i a2 t2) as (t3 & a3 & -> & C3 & P3 & _ & _ & D3).
      * eapply changed_opens; eauto.
      * apply C2.
      * exists t3, (Update a). split; [reflexivity|].
        eapply Hfin; [eapply changed_trans; [exact C2|exact C3]|assumption|apply temp_same; congruence|].
        split; assumption.
  - destruct Hor as [Hor|Hor]; [discriminate|]. unfold set_dir_replacement.
    destruct (write_temp_ok root now i (NOther dd a) t Hop T) as (t1 & -> & C1 & D1). rewrite Hor. rewrite F in C1.
    destruct (start i) as [[a0|? ?]|] eqn:S; try discriminate.
    destruct (chmod700_ok root i a0 t1) as (t2 & a2 & -> & C2 & P2 & _ & _ & D2); [eapply changed_opens; eauto|apply C1|].
    exists t2, Replace. split; [reflexivity|].
    eapply Hfin; [eapply changed_trans; [exact C1|exact C2]|assumption|eapply temp_trans; [exact D1|apply temp_same; exact D2]|].
    rewrite Hw. split; [reflexivity|]. apply D1.
  - destruct Hor as [Hor|Hor]; [discriminate|]. unfold set_dir_replacement. rewrite Hor.
    destruct (start i) as [[a0|? ?]|] eqn:S; try discriminate. 
    destruct (chmod700_ok root i a0 t Hop F) as (t2 & a2 & -> & C2 & P2 & _ & _ & D2).
    exists t2, Replace. split; [reflexivity|].
    eapply Hfin; [exact C2|assumption|apply temp_same; exact D2|]. rewrite Hw. split; [reflexivity|assumption].
Qed.

(** *** the whole run *)
Let all := fill_in fst diffs.

Lemma all_sorted : sorted_by (fkey fst) all.
Proof. apply fill_in_sorted. now apply diffs_sorted. Qed.

(** every item differs, or is a directory filled in *)
Lemma all_inl i d : In (inl (i, d)) all -> d = get i new /\ differ same new old i.
Proof.
  intros H. apply (diffs_spec same new old Hnew Hold). fold diffs.
  rewrite <- (fill_in_elems fst diffs). apply in_flat_map. exists (inl (i, d)). split; [exact H|now left].
Qed.
Lemma all_covers i : differ same new old i -> In i (map (fkey fst) all).
Proof.
  intros H. assert (X : In (i, get i new) diffs) by (apply diffs_spec; auto).
  rewrite <- (fill_in_elems fst diffs) in X. apply in_flat_map in X as ([x|p] & Hx & X); [|destruct X].
  destruct X as [->|[]]. apply in_map_iff. exists (inl (i, get i new)). split; [reflexivity|exact Hx].
Qed.
Lemma all_inr p : In (inr p) all -> ~ differ same new old p /\ (is_dir (get p new) = true \/ is_dir (get p old) = true).
Proof.
  intros H. split.
  - intros D. assert (X : In (p, get p new) diffs) by (apply diffs_spec; auto).
    rewrite <- (fill_in_elems fst diffs) in X. apply in_flat_map in X as ([x|q] & Hx & X); [|destruct X].
    destruct X as [->|[]].
    pose proof (sorted_unique _ _ _ _ all_sorted H Hx eq_refl). discriminate.
  - apply (fill_in_only fst) in H as ([i d] & Hin & P & N). cbn [fst] in *.
    apply diffs_spec in Hin as (_ & D); [|assumption|assumption]. eapply differ_dirs; [exact D|]. now split.
Qed.
Lemma all_dirs e p : In e all -> below p (fkey fst e) -> is_dir (get p new) = true \/ is_dir (get p old) = true.
Proof.
  intros H B. destruct e as [[i d]|q]; cbn [fkey fst] in B.
  - apply all_inl in H as (_ & D). eapply differ_dirs; eassumption.
  - apply (fill_in_only fst) in H as ([i d] & Hin & P & N). cbn [fst] in *.
    apply diffs_spec in Hin as (_ & D); [|assumption|assumption]. eapply differ_dirs; [exact D|].
    split; [eapply prefix_trans; [apply B|exact P]|]. intros ->. apply N. apply prefix_antisym; [assumption|apply B].
Qed.
Lemma not_all j : ~ In j (map (fkey fst) all) -> want j = start j.
Proof. intros H. apply want_same. intros D. now apply H, all_covers. Qed.

Inductive rinv (pre : list (item + idx)) : run -> Prop :=
| RI_start : pre = [] -> rinv pre (mk_run None [] false t0)
| RI_fast x t : pre = [x] -> fkey fst x = [] -> is_dir (get [] new) = false -> is_dir (get [] old) = false ->
    (forall i, get i (temps t) = None) -> get [] (files t) = want [] ->
    (forall i, i <> [] -> get i (files t) = start i) ->
    rinv pre (mk_run (Some []) [] true t)
| RI_run pre' x brs t : pre = pre' ++ [x] -> inv (upto (fkey fst x)) brs t ->
    (forall b, In b (map fst brs) -> prefix b (fkey fst x)) ->
    (forall p, below p (fkey fst x) -> In p (map fst brs)) ->
    In [] (map fst brs) ->
    (In (fkey fst x) (map fst brs)
     \/ is_dir (get (fkey fst x) new) = false /\ is_dir (get (fkey fst x) old) = false) ->
    rinv pre (mk_run (Some (fkey fst x)) brs false t).

Lemma inv_start : inv (fun j => False) [] t0.
Proof.
  split; [constructor|intros b p []|]. intros j. split; [intros w []|]. intros _. rewrite Htemps. repeat split. intros [].
Qed.

Lemma inv_weaken (done done' : idx -> Prop) brs t : inv done brs t ->
  (forall j, ~ In j (map fst brs) -> done' j -> done j \/ (~ done j /\ want j = start j)) ->
  (forall j, ~ In j (map fst brs) -> ~ done' j -> ~ done j) -> inv done' brs t.
Proof.
  intros H H1 H2. split; [apply H|apply H|]. intros j. destruct (i_at _ _ _ H j) as (A1 & A2). split; [assumption|].
  intros Hj. destruct (A2 Hj) as (B1 & B2 & B3). split; [assumption|]. split.
  - intros D. destruct (H1 j Hj D) as [D'|[D' E]]; [now apply B2|]. rewrite E. now apply B3.
  - intros D. apply B3. now apply H2.
Qed.

Lemma stat_at i t : opens root i t -> stat root i t = Some (get i (files t)).
Proof. intros H. unfold stat. now rewrite reachable_open. Qed.

Lemma not_dir_old i : is_dir (get i (files t0)) = false -> is_dir (get i old) = false.
Proof. intros H. destruct (get i old) as [n|] eqn:E; [|reflexivity]. apply Hlist in E. now rewrite <- E. Qed.

(** the item of an element, with [start] there *)
Definition item_of (e : item + idx) : item :=
  match e with inl x => x | inr p => (p, start p) end.

Lemma item_of_key e : fst (item_of e) = fkey fst e.
Proof. now destruct e. Qed.
Lemma item_of_want e : In e all -> snd (item_of e) = want (fkey fst e).
Proof.
  destruct e as [[i d]|p]; cbn [item_of fkey fst snd]; intros H.
  - apply all_inl in H as (-> & D). now rewrite want_diff.
  - apply all_inr in H as (D & _). now rewrite want_same.
Qed.
Lemma item_exists e : In e all -> snd (item_of e) = None -> start (fkey fst e) <> None.
Proof.
  destruct e as [[i d]|p]; cbn [item_of fkey fst snd]; intros H E.
  - apply all_inl in H as (-> & D). unfold differ in D. rewrite E in D.
    destruct (get i old) as [t|] eqn:E1; [|destruct D]. apply Hlist in E1. unfold start. congruence.
  - apply all_inr in H as (D & Hd). destruct (filler_dir p D Hd) as (a & E1 & _). congruence.
Qed.
Lemma fast_no_dir e : In e all -> is_dir (snd (item_of e)) = false -> is_dir (start (fkey fst e)) = false ->
  is_dir (get (fkey fst e) new) = false /\ is_dir (get (fkey fst e) old) = false.
Proof.
  intros H H1 H2. split; [|now apply not_dir_old]. rewrite (item_of_want _ H) in H1.
  destruct (is_dir (get (fkey fst e) new)) eqn:E; [|reflexivity]. apply want_dir_new in E. congruence.
Qed.

Lemma filled_ok e t : In e all -> (forall p, e = inr p -> opens root p t /\ get p (files t) = start p) -> filled root e t = Some (item_of e).
Proof.
  destruct e as [x|p]; intros H Hp; [reflexivity|]. cbn [filled item_of]. destruct (Hp p eq_refl) as (O & G).
  rewrite stat_at by assumption. rewrite G. apply all_inr in H as (D & Hd).
  destruct (filler_dir p D Hd) as (a & E1 & _). now rewrite E1.
Qed.

Lemma run_step pre e l r : all = pre ++ e :: l -> rinv pre r ->
  exists x r', filled root e (r_tree r) = Some x /\ call root now x r = Some r' /\ rinv (pre ++ [e]) r'.
Proof.
  intros Hall H. pose proof all_sorted as Hs. rewrite Hall in Hs.
  assert (Hin : In e all) by (rewrite Hall; apply in_or_app; right; now left).
  assert (Hsorted : forall y, In y pre -> idx_lt (fkey fst y) (fkey fst e)).
  { intros y Hy. clear - Hs Hy. induction pre as [|z pre IH]; [destruct Hy|]. cbn [app] in Hs. apply sorted_inv in Hs as (H1 & H2).
    destruct Hy as [<-|Hy]; [|now apply IH]. apply H2. apply in_or_app. right. now left. }
  assert (Hafter : forall y, In y l -> idx_lt (fkey fst e) (fkey fst y)).
  { intros y Hy. clear - Hs Hy. induction pre as [|z pre IH]; cbn [app] in Hs; apply sorted_inv in Hs as (H1 & H2); auto. }
  assert (Hanc : forall p, below p (fkey fst e) -> exists y, In y pre /\ fkey fst y = p).
  { intros p (P & N). pose proof (fill_in_ancestors fst diffs e p Hin P) as X. fold all in X. rewrite Hall in X.
    apply in_map_iff in X as (y & E & X). apply in_app_or in X as [X|[X|X]]; [eauto| |].
    - subst. now exfalso.
    - exfalso. apply Hafter in X. rewrite E in X. destruct (prefix_le _ _ P) as [L|L]; [contradiction|].
      apply (idx_lt_irrefl p). eapply idx_lt_trans; eassumption. }
  set (i := fkey fst e) in *. 
  inversion H as [Hpre Er|x t Hpre Hx Hd1 Hd2 HT HF HF' Er|pre' x brs t Hpre Hinv Hb Hp Hroot Hlast Er]; subst r.
  - (* the first item: the root *)
    subst pre. cbn [app] in *. cbn [r_tree].
    assert (Hi : i = []).
    { destruct i as [|c i'] eqn:Ei; [reflexivity|]. destruct (Hanc []) as (y & [] & _). split; [now exists (c :: i')|discriminate]. }
    assert (Hnb : forall p, below p i -> In p (@map (idx * what) idx fst [])).
    { intros p B. apply Hanc in B as (y & [] & _). }
    assert (Hop : opens root i t0). { intros p B. exfalso. now apply Hnb in B. }
    assert (Hnow : inv (before i) [] t0).
    { apply inv_weaken with (done := fun _ => False); [apply inv_start| |tauto]. intros j _ D. exfalso. unfold before in D.
      rewrite Hi in D. destruct j; discriminate D. }
    exists (item_of e). rewrite filled_ok; [|assumption|].
    2:{ intros p ->. split; [exact Hop|reflexivity]. }
    unfold call. cbn [r_last r_tree]. unfold can_fast. rewrite item_of_key. fold i. rewrite stat_at by assumption.
    change (get i (files t0)) with (start i).
    destruct (negb (is_dir (snd (item_of e))) && negb (is_dir (start i))) eqn:Ef.
    + apply andb_true_iff in Ef as (F1 & F2). apply negb_true_iff in F1, F2.
      destruct (item_fast [] t0 i (snd (item_of e)) Hnow Hnb) as (t1 & E1 & I1); auto.
      { symmetry. now apply item_of_want. }
      { now apply item_exists. }
      replace (item_of e) with (i, snd (item_of e)) by (unfold i; rewrite <- item_of_key; now destruct (item_of e)).
      rewrite E1. eexists. split; [reflexivity|]. split; [reflexivity|]. cbn [fst]. rewrite Hi.
      destruct (fast_no_dir e Hin F1 F2) as (N1 & N2). fold i in N1, N2. rewrite Hi in N1, N2.
      apply RI_fast with (x := e); auto.
      * intros j. destruct (i_at _ _ _ I1 j) as (_ & X). now apply X.
      * destruct (i_at _ _ _ I1 []) as (_ & X). destruct X as (_ & X & _); [intros []|]. apply X. rewrite Hi. apply idx_lt_irrefl.
      * intros j Hj. destruct (i_at _ _ _ I1 j) as (_ & X). destruct X as (_ & _ & X); [intros []|]. apply X. rewrite Hi. intros Hu.
        apply Hu. destruct j; [congruence|reflexivity].
    + destruct (item_start [] t0 i (snd (item_of e)) Hnow Hnb) as (t1 & w & E1 & I1).
      { intros p []. }
      { symmetry. now apply item_of_want. }
      { destruct (is_dir (snd (item_of e))); [now left|]. destruct (is_dir (start i)); [now right|discriminate]. }
      replace (item_of e) with (i, snd (item_of e)) by (unfold i; rewrite <- item_of_key; now destruct (item_of e)).
      rewrite E1. eexists. split; [reflexivity|]. split; [reflexivity|]. cbn [fst].
      apply RI_run with (pre' := []); auto; fold i; cbn [map fst].
      * intros b [<-|[]]. apply prefix_refl.
      * intros p B. exfalso. now apply Hnb in B.
      * left. exact Hi.
      * left. now left.
  - (* nothing follows a root processed at once *)
    exfalso. assert (B : below [] i).
    { split; [now exists i|]. intros E. assert (L : idx_lt (fkey fst x) i) by (apply Hsorted; rewrite Hpre; now left).
      rewrite Hx, <- E in L. discriminate L. }
    destruct (all_dirs e [] Hin B) as [X|X]; congruence.
  - set (last := fkey fst x) in *. cbn [r_tree].
    assert (Hxin : In x pre) by (subst pre; apply in_or_app; right; now left).
    assert (Hlt : idx_lt last i) by now apply Hsorted.
    assert (Hle : forall y, In y pre -> ~ idx_lt last (fkey fst y)).
    { intros y Hy L. subst pre. apply in_app_or in Hy as [Hy|[->|[]]]; [|now apply (idx_lt_irrefl last)].
      assert (Hs' : sorted_by (fkey fst) (pre' ++ [x])).
      { clear - Hs. rewrite <- app_assoc in Hs. cbn [app] in Hs. induction pre' as [|z p IH]; cbn [app] in *.
        - apply sorted_inv in Hs as (H1 & H2). apply sorted_cons; [constructor|intros ? []].
        - apply sorted_inv in Hs as (H1 & H2). apply sorted_cons; [now apply IH|]. intros y Hy. apply H2.
          apply in_app_or in Hy as [Hy|[<-|[]]]; apply in_or_app; [now left|right; now left]. }
      clear - Hs' Hy L. unfold last in L. induction pre' as [|z p IH]; [destruct Hy|]. cbn [app] in Hs'.
      apply sorted_inv in Hs' as (H1 & H2). destruct Hy as [<-|Hy]; [|now apply IH].
      apply (idx_lt_irrefl (fkey fst z)). eapply idx_lt_trans; [|exact L]. apply H2. apply in_or_app. right. now left. }
    assert (Hbet : forall j, idx_lt last j -> idx_lt j i -> want j = start j).
    { intros j L1 L2. apply not_all. rewrite Hall. intros X. apply in_map_iff in X as (y & E & X).
      apply in_app_or in X as [X|[X|X]].
      - apply (Hle y X). now rewrite E.
      - subst y. fold i in E. subst j. now apply (idx_lt_irrefl i).
      - apply Hafter in X. rewrite E in X. apply (idx_lt_irrefl i). eapply idx_lt_trans; eassumption. }
    assert (Hanc' : forall p, below p i -> In p (map fst brs)).
    { intros p B. destruct (Hanc p B) as (y & Hy & E). pose proof (Hle y Hy) as L. rewrite E in L.
      assert (Pl : prefix p last).
      { apply prefix_between with i; [|assumption|apply B]. destruct (idx_trichotomy p last) as [X|[X|X]]; auto. contradiction. }
      destruct (list_eq_dec (list_eq_dec ascii_dec) p last) as [->|N]; [|apply Hp; now split].
      destruct Hlast as [X|(N1 & N2)]; [assumption|]. exfalso.
      destruct (all_dirs e last Hin B) as [X|X]; congruence. }
    assert (Hinv' : inv (before i) brs t).
    { apply inv_weaken with (done := upto last); [assumption| |].
      - intros j _ D. unfold before, upto in *. destruct (idx_trichotomy last j) as [L|[L|L]].
        + right. split; [intros U; now apply U|]. now apply Hbet.
        + left. subst j. apply idx_lt_irrefl.
        + left. intros L'. apply (idx_lt_irrefl j). eapply idx_lt_trans; eassumption.
      - intros j _ D U. apply D. unfold before, upto in *. destruct (idx_trichotomy last j) as [L|[L|L]]; [contradiction|now subst|].
        eapply idx_lt_trans; eassumption. }
    exists (item_of e). rewrite filled_ok; [|assumption|].
    2:{ intros p E. assert (Ei : i = p) by (unfold i; now rewrite E). rewrite <- Ei.
        assert (Oi : opens root i t) by (eapply inv_opens; eassumption). split; [exact Oi|].
        destruct (i_at _ _ _ Hinv' i) as (_ & X). destruct X as (_ & _ & X); [|apply X, idx_lt_irrefl].
        intros Y. apply Hb in Y. destruct (prefix_le _ _ Y) as [L|L].
        - rewrite L in Hlt. now apply idx_lt_irrefl in Hlt.
        - apply (idx_lt_irrefl i). eapply idx_lt_trans; eassumption. }
    unfold call. cbn [r_last r_tree r_brs r_fast]. rewrite item_of_key. fold i.
    replace (idx_cmp i last) with Gt by (symmetry; now apply idx_cmp_gt).
    destruct (finish_inv (before i) i brs t Hinv') as (brs' & t1 & -> & I1 & Hbrs').
    { intros b Y N. apply Hb in Y.
      assert (Lb : idx_lt b i).
      { destruct (prefix_le _ _ Y) as [->|L]; [assumption|]. eapply idx_lt_trans; eassumption. }
      split; [exact Lb|]. intros j (Pj & _). unfold before. destruct (idx_trichotomy j i) as [L|[L|L]]; [assumption| |].
      - subst j. contradiction.
      - exfalso. apply N. apply prefix_between with j; [now right|assumption|assumption]. }
    assert (Hnb : forall p, below p i -> In p (map fst brs')).
    { intros p B. apply Hbrs'. split; [now apply Hanc'|apply B]. }
    assert (Hbi : forall p, In p (map fst brs') -> below p i).
    { intros p Y. apply Hbrs' in Y as (Y & P). split; [assumption|]. intros ->. apply Hb in Y.
      destruct (prefix_le _ _ Y) as [L|L].
      - rewrite L in Hlt. now apply idx_lt_irrefl in Hlt.
      - apply (idx_lt_irrefl i). eapply idx_lt_trans; eassumption. }
    assert (Hni : ~ In i (map fst brs')). { intros Y. apply Hbi in Y. now apply (proj2 Y). }
    assert (Hroot' : In [] (map fst brs')). { apply Hbrs'. split; [assumption|now exists i]. }
    destruct brs' as [|br rest]; [destruct Hroot'|].
    assert (Oi : opens root i t1) by (eapply inv_opens; eassumption).
    unfold can_fast. rewrite item_of_key. fold i. rewrite stat_at by assumption.
    assert (Gi : get i (files t1) = start i).
    { destruct (i_at _ _ _ I1 i) as (_ & X). destruct (X Hni) as (_ & _ & Y). apply Y, idx_lt_irrefl. }
    rewrite Gi.
    assert (Ei : item_of e = (i, snd (item_of e))) by (unfold i; rewrite <- item_of_key; now destruct (item_of e)).
    destruct (negb (is_dir (snd (item_of e))) && negb (is_dir (start i))) eqn:Ef.
    + apply andb_true_iff in Ef as (F1 & F2). apply negb_true_iff in F1, F2.
      destruct (item_fast (br :: rest) t1 i (snd (item_of e))) as (t2 & E2 & I2); auto.
      { symmetry. now apply item_of_want. }
      { now apply item_exists. }
      rewrite Ei. rewrite E2. eexists. split; [reflexivity|]. split; [reflexivity|]. 
      unfold i. apply RI_run with (pre' := pre); auto; fold i; try assumption.
      * intros b Y. exact (proj1 (Hbi b Y)).
      * right. now apply fast_no_dir.
    + destruct (item_start (br :: rest) t1 i (snd (item_of e))) as (t2 & w & E2 & I2); try assumption.
      { symmetry. now apply item_of_want. }
      { destruct (is_dir (snd (item_of e))); [now left|]. destruct (is_dir (start i)); [now right|discriminate]. }
      rewrite Ei. rewrite E2. eexists. split; [reflexivity|]. split; [reflexivity|].
      unfold i. apply RI_run with (pre' := pre); auto; fold i; change (map fst ((i, w) :: br :: rest)) with (i :: map fst (br :: rest)).
      * intros b [<-|Y]; [apply prefix_refl|]. exact (proj1 (Hbi b Y)).
      * intros p B. right. now apply Hnb.
      * right. assumption.
      * left. now left.
Qed.

Lemma run_all l : forall pre r, all = pre ++ l -> rinv pre r ->
  exists r', run_items root now l r = Some r' /\ rinv all r'.
Proof.
  induction l as [|e l IH]; intros pre r Hall H; cbn [run_items].
  - rewrite app_nil_r in Hall. subst pre. eauto.
  - destruct (run_step pre e l r Hall H) as (x & r' & -> & -> & H').
    apply (IH (pre ++ [e])); [now rewrite <- app_assoc|assumption].
Qed.

Theorem apply_spec : exists t', apply root now diffs t0 = Some t'
  /\ (forall i, get i (files t') = want i) /\ forall i, get i (temps t') = None.
Proof.
  unfold apply. fold all. destruct (run_all all [] _ eq_refl (RI_start [] eq_refl)) as (r & -> & H).
  inversion H as [Hpre Er|x t Hpre Hx Hd1 Hd2 HT HF HF' Er|pre' x brs t Hpre Hinv Hb Hp Hroot Hlast Er]; subst r;
    unfold finish_run; cbn [r_last r_tree r_fast r_brs].
  - exists t0. split; [reflexivity|]. split; [|intros i; now rewrite Htemps]. intros i. symmetry. apply not_all.
    rewrite Hpre. intros [].
  - exists t. split; [reflexivity|]. split; [|assumption]. intros i.
    destruct (list_eq_dec (list_eq_dec ascii_dec) i []) as [->|N]; [assumption|]. rewrite HF' by assumption. symmetry. apply not_all.
    rewrite Hpre. cbn [map]. rewrite Hx. intros [E|[]]. now symmetry in E.
  - assert (Hinv' : inv (fun _ => True) brs t).
    { apply inv_weaken with (done := upto (fkey fst x)); [assumption| |].
      - intros j _ _. destruct (idx_trichotomy (fkey fst x) j) as [L|[L|L]].
        + right. split; [intros U; now apply U|]. apply not_all. intros X. apply in_map_iff in X as (y & E & X).
          pose proof all_sorted as Hs. rewrite Hpre in Hs, X. apply in_app_or in X as [X|[X|[]]].
          * clear - Hs X E L. induction pre' as [|z p IH]; [destruct X|]. cbn [app] in Hs.
            apply sorted_inv in Hs as (H1 & H2). destruct X as [->|X]; [|now apply IH].
            apply (idx_lt_irrefl j). eapply idx_lt_trans; [|exact L]. rewrite <- E. apply H2. apply in_or_app. right. now left.
          * subst y j. now apply (idx_lt_irrefl (fkey fst x)).
        + left. subst j. apply idx_lt_irrefl.
        + left. intros L'. apply (idx_lt_irrefl j). eapply idx_lt_trans; eassumption.
      - tauto. }
    destruct (end_all_inv _ brs t Hinv' (fun _ => I)) as (t' & E & I'). exists t'. split; [assumption|].
    split; intros j; destruct (i_at _ _ _ I' j) as (_ & X); destruct X as (X1 & X2 & _); auto.
Qed.
End Run.
