(** Lemmas about M_Select *)
From Coq Require Import List ZArith Bool Ascii Lia Permutation.
From Verif Require Import Base L_Base M_Iter L_Iter P_Iter M_Select S_Select.
Import List ListNotations.
Local Open Scope Z_scope.

Definition reset (f : sf) : sf := match f with SfFilelist l e _ => SfFilelist l e 0 | _ => f end.

(** soundness of the cursors for the indices of [P] *)
Definition ok (P : idx -> Prop) (f : sf) : Prop :=
  match f with
  | SfFilelist l _ i => forall e, In e (firstn i l) -> forall j, P j -> pair_match j e = (None, true)
  | _ => True
  end.

Lemma filelist_loop_skip j l cur pre : (forall e, In e pre -> pair_match j e = (None, true)) ->
  filelist_loop j (pre ++ l) cur = filelist_loop j l (length pre + cur).
Proof.
  revert cur; induction pre as [|e pre IH]; intros cur H; [reflexivity|].
  cbn [filelist_loop app length Nat.add]. rewrite (H e (or_introl eq_refl)).
  rewrite IH by (intros; apply H; now right). f_equal; lia.
Qed.
Lemma filelist_loop_cur j l cur : filelist_loop j l cur =
  (fst (filelist_loop j l 0), (cur + snd (filelist_loop j l 0))%nat).
Proof.
  revert cur; induction l as [|e l IH]; intros cur; cbn [filelist_loop fst snd].
  - f_equal; lia.
  - destruct (pair_match j e) as [inc mv]. destruct mv.
    + destruct inc; cbn [fst snd]. { f_equal; lia. }
      rewrite IH, (IH 1%nat). cbn [fst snd]. f_equal; lia.
    + cbn [fst snd]. f_equal; lia.
Qed.

Lemma pair_match_later i j e inc : pair_match i e = (inc, true) -> idx_lt i j -> pair_match j e = (None, true).
Proof.
  destruct e as [x b]; unfold pair_match. destruct b.
  - destruct (idx_ltb x i) eqn:E1.
    + intros _ L. apply L_Iter.idx_ltb_lt in E1.
      now rewrite (proj2 (L_Iter.idx_ltb_lt x j) (idx_lt_trans _ _ _ E1 L)).
    + destruct (idx_eqb x i) eqn:E2; [|destruct (is_prefix i x); discriminate].
      apply idx_eqb_eq in E2; subst x. intros _ L. now rewrite (proj2 (L_Iter.idx_ltb_lt i j) L).
  - destruct (is_prefix x i) eqn:E0; [discriminate|].
    destruct (idx_ltb x i) eqn:E1; [|discriminate]. intros _ L.
    apply L_Iter.idx_ltb_lt in E1.
    assert (E2 : is_prefix x j = false).
    { destruct (is_prefix x j) eqn:E2; [|reflexivity]. apply is_prefix_spec in E2.
      assert (prefix x i) as H by (eapply prefix_between; eauto).
      apply is_prefix_spec in H; congruence. }
    rewrite E2. now rewrite (proj2 (L_Iter.idx_ltb_lt x j) (idx_lt_trans _ _ _ E1 L)).
Qed.

Lemma filelist_passed j l e : In e (firstn (snd (filelist_loop j l 0)) l) ->
  exists inc, pair_match j e = (inc, true).
Proof.
  induction l as [|a l IH]; cbn [filelist_loop]; [cbn; tauto|].
  destruct (pair_match j a) as [inc mv] eqn:E. destruct mv.
  - destruct inc as [b|].
    + cbn [snd firstn]. intros [<-|[]]; eauto.
    + rewrite filelist_loop_cur. cbn [snd Nat.add firstn]. intros [<-|H]; eauto.
  - cbn. tauto.
Qed.
Lemma firstn_in {A} n (l : list A) x : In x (firstn n l) -> In x l.
Proof. intros H. rewrite <- (firstn_skipn n l). apply in_or_app; now left. Qed.
Lemma skipn_in {A} n (l : list A) x : In x (skipn n l) -> In x l.
Proof. intros H. rewrite <- (firstn_skipn n l). apply in_or_app; now right. Qed.
Lemma filelist_passed_ex j l e : (forall p, In p l -> snd p = false) ->
  In e (firstn (snd (filelist_loop j l 0)) l) -> pair_match j e = (None, true).
Proof.
  intros A H. destruct (filelist_passed _ _ _ H) as [inc E].
  pose proof (A e (firstn_in _ _ _ H)) as X.
  destruct e as [x b]; cbn in X; subst b. revert E; unfold pair_match.
  destruct (is_prefix x j); [discriminate|]. destruct (idx_ltb x j); congruence.
Qed.

Section Ctx.
Variable c : sctx.

Definition sim (f g : sf) : Prop := reset f = reset g.

Lemma call_reset f rp : reset (snd (call c f rp)) = reset f.
Proof. destruct f; try reflexivity. cbn. now destruct (filelist_loop _ _ _). Qed.


Lemma call_pure P f rp : ok P f -> P (rp_index rp) -> fst (call c f rp) = fst (call c (reset f) rp).
Proof.
  destruct f; try reflexivity. cbn [ok reset call]. intros O Pi.
  rewrite (filelist_loop_cur _ _ i).
  destruct (filelist_loop (rp_index rp) (skipn 0 l) 0) as [r j] eqn:E. cbn [fst].
  do 2 f_equal. change r with (fst (r, j)). rewrite <- E. cbn [skipn].
  rewrite <- (firstn_skipn i l) at 2.
  rewrite filelist_loop_skip by (intros; apply O; auto).
  now rewrite (filelist_loop_cur _ _ (_ + _)%nat).
Qed.

Lemma firstn_plus {A} (l : list A) a b : firstn (a + b) l = firstn a l ++ firstn b (skipn a l).
Proof.
  revert l; induction a as [|a IH]; intros l; [reflexivity|]. destruct l; cbn.
  - now rewrite firstn_nil.
  - now rewrite IH.
Qed.

Lemma call_ok (P P' : idx -> Prop) f rp : ok P f -> (forall j, P' j -> P j) ->
  (forall j, P' j -> idx_lt (rp_index rp) j) -> ok P' (snd (call c f rp)).
Proof.
  destruct f; try (cbn; tauto). cbn [ok call]. intros O S L.
  rewrite (filelist_loop_cur _ _ i). cbn [snd ok]. intros e He j Pj.
  rewrite firstn_plus in He. apply in_app_or in He as [He|He]; [auto|].
  destruct (filelist_passed _ _ _ He) as [inc E]. eapply pair_match_later; eauto.
Qed.
Lemma call_ok_same (P P' : idx -> Prop) f rp : ok P f -> (forall j, P' j -> P j) ->
  (forall j, P' j -> rp_index rp = j \/ idx_lt (rp_index rp) j) ->
  tame f -> sf_exclude f = true -> ok P' (snd (call c f rp)).
Proof.
  destruct f; try (cbn; tauto). cbn [ok call tame sf_exclude]. intros O S L T X.
  destruct T as [T|T]; [congruence|].
  rewrite (filelist_loop_cur _ _ i). cbn [snd ok]. intros e He j Pj.
  rewrite firstn_plus in He. apply in_app_or in He as [He|He]; [auto|].
  destruct (L _ Pj) as [<-|Lt].
  - apply (filelist_passed_ex (rp_index rp) (skipn i l)); [|exact He].
    intros p Hp; apply T; eapply skipn_in; eauto.
  - destruct (filelist_passed _ _ _ He) as [inc E]. eapply pair_match_later; eauto.
Qed.
Lemma call_name_stateless f rp : check_filename f = true -> snd (call c f rp) = f.
Proof. destruct f; try discriminate; reflexivity. Qed.

Lemma ok_weaken (P P' : idx -> Prop) f : (forall j, P' j -> P j) -> ok P f -> ok P' f.
Proof. destruct f; cbn; auto. Qed.
Lemma oks_weaken (P P' : idx -> Prop) fs : (forall j, P' j -> P j) -> Forall (ok P) fs -> Forall (ok P') fs.
Proof. intros H F; induction F; constructor; eauto using ok_weaken. Qed.

Lemma tame_reset f g : reset f = reset g -> tame f -> tame g.
Proof. destruct f, g; cbn; intros H; inversion H; subst; auto. Qed.
Lemma tames_reset fs gs : map reset fs = map reset gs -> Forall tame fs -> Forall tame gs.
Proof.
  revert gs; induction fs as [|f fs IH]; destruct gs as [|g gs]; cbn; intros H F; try discriminate; auto.
  injection H as H1 H2. inversion F; subst. constructor; eauto using tame_reset.
Qed.
Lemma check_reset f : check_filename (reset f) = check_filename f.
Proof. now destruct f. Qed.
Lemma exclude_reset f : sf_exclude (reset f) = sf_exclude f.
Proof. now destruct f. Qed.

(** the loop on functions in their initial state *)
Lemma sel_pure byname rp (P : idx -> Prop) : P (rp_index rp) -> forall fs s, Forall (ok P) fs ->
  fst (sel_loop c byname rp fs s) = fst (sel_loop c byname rp (map reset fs) s).
Proof.
  intros Pi; induction fs as [|f fs IH]; intros s F; [reflexivity|].
  inversion F; subst. cbn [sel_loop map]. rewrite check_reset, exclude_reset.
  destruct (byname && negb (check_filename f) && negb (sf_exclude f)); [reflexivity|].
  pose proof (call_pure _ _ _ H1 Pi) as E.
  destruct (call c f rp) as [r f'], (call c (reset f) rp) as [r2 f2]. cbn [fst] in E; subst r2.
  destruct r as [[[]|]|]; try reflexivity.
  - specialize (IH Doscan H2). destruct (sel_loop _ _ _ fs _), (sel_loop _ _ _ (map reset fs) _). exact IH.
  - specialize (IH s H2). destruct (sel_loop _ _ _ fs _), (sel_loop _ _ _ (map reset fs) _). exact IH.
Qed.
Lemma sel_reset byname rp fs : forall s, map reset (snd (sel_loop c byname rp fs s)) = map reset fs.
Proof.
  induction fs as [|f fs IH]; intros s; [reflexivity|]. cbn [sel_loop].
  destruct (byname && negb (check_filename f) && negb (sf_exclude f)); [reflexivity|].
  pose proof (call_reset f rp) as E. destruct (call c f rp) as [r f']. cbn [snd] in E.
  destruct r as [[[]|]|]; cbn [snd map]; try now rewrite E.
  - specialize (IH Doscan). destruct (sel_loop _ _ _ fs _). cbn [snd map] in *. now rewrite E, IH.
  - specialize (IH s). destruct (sel_loop _ _ _ fs _). cbn [snd map] in *. now rewrite E, IH.
Qed.
Lemma sel_ok (P P' : idx -> Prop) rp fs : (forall j, P' j -> P j) -> (forall j, P' j -> idx_lt (rp_index rp) j) ->
  forall s, Forall (ok P) fs -> Forall (ok P') (snd (sel_loop c false rp fs s)).
Proof.
  intros S L; induction fs as [|f fs IH]; intros s F; [constructor|]. cbn [sel_loop andb].
  inversion F; subst. pose proof (call_ok _ _ _ rp H1 S L) as E. destruct (call c f rp) as [r f']. cbn [snd] in E.
  destruct r as [[[]|]|]; cbn [snd]; try (constructor; [assumption|]; now apply (oks_weaken P)).
  - specialize (IH Doscan H2). destruct (sel_loop _ _ _ fs _). constructor; assumption.
  - specialize (IH s H2). destruct (sel_loop _ _ _ fs _). constructor; assumption.
Qed.
Lemma sel_ok_name (P P' : idx -> Prop) rp fs : (forall j, P' j -> P j) ->
  (forall j, P' j -> rp_index rp = j \/ idx_lt (rp_index rp) j) -> Forall tame fs ->
  forall s, Forall (ok P) fs -> Forall (ok P') (snd (sel_loop c true rp fs s)).
Proof.
  intros S L; induction fs as [|f fs IH]; intros T s F; [constructor|]. cbn [sel_loop andb].
  inversion F; subst. inversion T; subst.
  destruct (negb (check_filename f) && negb (sf_exclude f)) eqn:B.
  { cbn [snd]. constructor; [eapply ok_weaken; eauto|]. eapply oks_weaken; eauto. }
  assert (E : ok P' (snd (call c f rp))).
  { destruct (check_filename f) eqn:CF.
    - rewrite call_name_stateless by exact CF. eapply ok_weaken; eauto.
    - apply call_ok_same with (P := P); auto. destruct (sf_exclude f); [reflexivity|discriminate B]. }
  destruct (call c f rp) as [r f']. cbn [snd] in E.
  destruct r as [[[]|]|]; cbn [snd]; try (constructor; [assumption|]; now apply (oks_weaken P)).
  - specialize (IH H4 Doscan H2). destruct (sel_loop _ _ _ fs _). constructor; assumption.
  - specialize (IH H4 s H2). destruct (sel_loop _ _ _ fs _). constructor; assumption.
Qed.

(** the prefilter never excludes too much *)
Definition same_place (a b : srp) : Prop := rp_index a = rp_index b /\ rp_path a = rp_path b.
Lemma name_same f a b : check_filename f = true -> same_place a b -> fst (call c f a) = fst (call c f b).
Proof. intros H [E1 E2]. destruct f; try discriminate; cbn; now rewrite ?E1, ?E2. Qed.

Lemma name_exclude f a b : check_filename f = false -> sf_exclude f = true -> tame f ->
  same_place a b -> rp_data a = None -> rp_data b <> None ->
  fst (call c f b) = fst (call c f a) \/
  fst (call c f a) = Says None /\ fst (call c f b) = Says (Some Exclude).
Proof.
  intros CF X T [E1 E2] N1 N2.
  destruct f as [inc|t inc|g inc|g inc|nm inc|p inc|sz mx|dv inc|l e i]; try discriminate; cbn in X; cbn.
  - destruct inc; [discriminate|]. assert (rp_isdir a = false) as -> by (unfold rp_isdir; now rewrite N1).
    cbn [andb of_bool]. destruct (_ && _ && _); auto.
  - destruct inc; [discriminate|]. unfold says_if.
    assert (eval_pred p a = false) as ->
      by (destruct p; cbn; unfold rp_isdev, rp_issym, rp_issock, rp_isfifo; now rewrite N1).
    destruct (eval_pred p b); auto.
  - unfold rp_isreg; rewrite N1. destruct (rp_data b) as [[[]]|]; cbn; auto.
    destruct (if mx then _ else _); auto.
  - cbn in T; subst inc. discriminate X.
  - left. now rewrite E1.
Qed.

Lemma sel_doscan_not_exclude byname rp fs : fst (sel_loop c byname rp fs Doscan) <> Some Exclude.
Proof.
  induction fs as [|f fs IH]; [discriminate|]. cbn [sel_loop].
  destruct (byname && negb (check_filename f) && negb (sf_exclude f)); [discriminate|].
  destruct (call c f rp) as [r f']. destruct r as [[[]|]|]; try discriminate;
    destruct (sel_loop _ _ _ fs _); exact IH.
Qed.

Lemma prefilter_sound a b fs : same_place a b -> rp_data a = None -> rp_data b <> None -> Forall tame fs ->
  fst (sel_loop c true a fs Exclude) = Some Exclude -> fst (sel_loop c false b fs Exclude) = Some Exclude.
Proof.
  intros SP N1 N2. induction fs as [|f fs IH]; intros T; [discriminate|]. cbn [sel_loop andb].
  inversion T; subst. pose proof (sel_doscan_not_exclude true a fs) as ND.
  destruct (check_filename f) eqn:CF; cbn [negb andb].
  - pose proof (name_same f a b CF SP) as E.
    destruct (call c f a) as [r f1], (call c f b) as [r2 f2]. cbn [fst] in E; subst r2.
    destruct r as [[[]|]|]; try discriminate; auto.
    + revert ND. destruct (sel_loop c true a fs Doscan). cbn [fst]. intros; congruence.
    + specialize (IH H2). destruct (sel_loop _ _ _ fs _), (sel_loop _ _ _ fs _). exact IH.
  - destruct (sf_exclude f) eqn:X; cbn [negb]; [|discriminate].
    pose proof (name_exclude f a b CF X H1 SP N1 N2) as E.
    destruct (call c f a) as [r f1], (call c f b) as [r2 f2]. cbn [fst] in E.
    destruct E as [->|[-> ->]]; [|reflexivity].
    destruct r as [[[]|]|]; try discriminate; auto.
    + revert ND. destruct (sel_loop c true a fs Doscan). cbn [fst]. intros; congruence.
    + specialize (IH H2). destruct (sel_loop _ _ _ fs _), (sel_loop _ _ _ fs _). exact IH.
Qed.

(** no exception on either call *)
Lemma tame_no_raise f rp : tame f -> fst (call c f rp) = Raises ->
  exists d, f = SfOtherFs d true /\ rp_data rp = None.
Proof.
  destruct f as [inc|t inc|g inc|g inc|nm inc|p inc|sz mx|dv inc|l e i]; cbn; intros T; unfold says_if;
    repeat match goal with |- context[if ?b then _ else _] => destruct b end;
    try discriminate; try (destruct (rp_isreg rp); repeat match goal with |- context[if ?b then _ else _] => destruct b end; discriminate).
  - destruct (rp_data rp); [discriminate|]. subst; eauto.
  - destruct (filelist_loop _ _ _); discriminate.
Qed.
Lemma sel_no_raise byname rp fs : Forall tame fs -> (byname = true \/ rp_data rp <> None) ->
  forall s, fst (sel_loop c byname rp fs s) <> None.
Proof.
  intros T H; induction T as [|f fs Tf _ IH]; intros s; [discriminate|]. cbn [sel_loop].
  destruct (byname && negb (check_filename f) && negb (sf_exclude f)) eqn:B; [discriminate|].
  pose proof (tame_no_raise f rp Tf) as NR.
  destruct (call c f rp) as [r f']. cbn [fst] in NR. destruct r as [[[]|]|]; try discriminate.
  - specialize (IH Doscan); destruct (sel_loop _ _ _ fs _); exact IH.
  - specialize (IH s); destruct (sel_loop _ _ _ fs _); exact IH.
  - destruct (NR eq_refl) as [d [-> N]]. destruct H as [->|H]; [discriminate B|contradiction].
Qed.

(** ** The iteration *)
Variable fs0 : list sf.
Hypothesis T0 : Forall tame fs0.
Hypothesis F0 : map reset fs0 = fs0.
Definition D : decision := decide c fs0.

Definition inv (P : idx -> Prop) (fs : list sf) : Prop := Forall (ok P) fs /\ map reset fs = fs0.
Lemma inv_tame P fs : inv P fs -> Forall tame fs.
Proof using T0 F0. intros [_ H]. eapply tames_reset; [|exact T0]. now rewrite H. Qed.
Lemma inv_weaken (P P' : idx -> Prop) fs : (forall j, P' j -> P j) -> inv P fs -> inv P' fs.
Proof using. intros S [H1 H2]; split; auto. eapply oks_weaken; eauto. Qed.

Definition from (i j : idx) : Prop := i = j \/ idx_lt i j.

Lemma gen_entry fs d n t r : inv (from (d ++ [n])) fs ->
  exists fs1, inv (idx_lt (d ++ [n])) fs1 /\
  gen_next c fs d ((n, t) :: r) =
    if t_gone t then gen_next c fs1 d r else
    match D (d ++ [n]) t with
    | Some Include => GYield (d ++ [n]) t Include r fs1
    | Some Doscan => if t_isdir t then GYield (d ++ [n]) t Doscan r fs1 else gen_next c fs1 d r
    | _ => gen_next c fs1 d r
    end.
Proof using T0 F0.
  intros I. pose proof (inv_tame _ _ I) as T. destruct I as [O R].
  set (i := d ++ [n]) in *. cbn [gen_next]. fold i.
  unfold select_filename.
  pose proof (sel_ok_name (from i) (from i) (minimal_rp c i) fs (fun j H => H) (fun j H => H) T Exclude O) as O1.
  pose proof (sel_reset true (minimal_rp c i) fs Exclude) as R1.
  pose proof (sel_no_raise true (minimal_rp c i) fs T (or_introl eq_refl) Exclude) as N1.
  assert (RD : rp_data (real_rp c i t) <> None) by discriminate.
  pose proof (prefilter_sound (minimal_rp c i) (real_rp c i t) fs (conj eq_refl eq_refl) eq_refl RD T) as PF.
  assert (Df : forall fs, Forall (ok (from i)) fs -> map reset fs = fs0 ->
             fst (select_default c fs (real_rp c i t)) = D i t).
  { intros gs Og Rg. unfold D, decide, select_default. rewrite <- Rg.
    apply (sel_pure _ _ (from i)); [now left|exact Og]. }
  assert (L : forall j, idx_lt i j -> from i j) by (intros; now right).
  destruct (sel_loop c true (minimal_rp c i) fs Exclude) as [s fs1] eqn:E1. cbn [fst snd] in *.
  destruct s as [s|]; [|contradiction].
  rewrite R in R1.
  assert (Cont : s <> Exclude -> exists fs2, inv (idx_lt i) fs2 /\
     (if t_gone t then gen_next c fs1 d r
          else match select_default c fs1 (real_rp c i t) with
               | (None, _) => GRaise
               | (Some Include, fs2) => GYield i t Include r fs2
               | (Some Doscan, fs2) => if t_isdir t then GYield i t Doscan r fs2 else gen_next c fs2 d r
               | (Some Exclude, fs2) => gen_next c fs2 d r
               end) =
     if t_gone t then gen_next c fs2 d r else
      match D i t with
      | Some Include => GYield i t Include r fs2
      | Some Doscan => if t_isdir t then GYield i t Doscan r fs2 else gen_next c fs2 d r
      | _ => gen_next c fs2 d r
      end).
  { intros _. destruct (t_gone t) eqn:G.
    - exists fs1. split; [split; [eapply oks_weaken; eauto|exact R1]|reflexivity].
    - pose proof (Df fs1 O1 R1) as Dv.
      pose proof (sel_ok (from i) (idx_lt i) (real_rp c i t) fs1 L (fun j H => H) Exclude O1) as O2.
      pose proof (sel_reset false (real_rp c i t) fs1 Exclude) as R2.
      pose proof (sel_no_raise false (real_rp c i t) fs1 (inv_tame _ _ (conj O1 R1)) (or_intror RD) Exclude) as N2.
      unfold select_default in *.
      destruct (sel_loop c false (real_rp c i t) fs1 Exclude) as [o fs2]. cbn [fst snd] in *.
      exists fs2. split; [split; [exact O2|congruence]|]. rewrite <- Dv.
      destruct o as [[]|]; try reflexivity. contradiction. }
  destruct s; try (apply Cont; discriminate).
  exists fs1. split; [split; [eapply oks_weaken; eauto|exact R1]|].
  assert (D i t = Some Exclude) as ->.
  { rewrite <- (Df fs O R). apply PF. reflexivity. }
  now destruct (t_gone t).
Qed.

(** the recursive description *)
Inductive W : idx -> list (bytes * ftree) -> list (idx * ftree) -> Prop :=
| W_nil : forall d, W d [] []
| W_skip : forall d n t r o, ~ accepted D (d ++ [n]) t -> W d r o -> W d ((n, t) :: r) o
| W_file : forall d n t r o, t_gone t = false -> D (d ++ [n]) t = Some Include -> t_isdir t = false ->
    W d r o -> W d ((n, t) :: r) ((d ++ [n], t) :: o)
| W_dir : forall d n t r o1 o, t_gone t = false -> D (d ++ [n]) t = Some Include -> t_isdir t = true ->
    W (d ++ [n]) (sort_names (t_ch t)) o1 -> W d r o -> W d ((n, t) :: r) ((d ++ [n], t) :: o1 ++ o)
| W_scan0 : forall d n t r o, t_gone t = false -> D (d ++ [n]) t = Some Doscan -> t_isdir t = true ->
    W (d ++ [n]) (sort_names (t_ch t)) [] -> W d r o -> W d ((n, t) :: r) o
| W_scan1 : forall d n t r x o1 o, t_gone t = false -> D (d ++ [n]) t = Some Doscan -> t_isdir t = true ->
    W (d ++ [n]) (sort_names (t_ch t)) (x :: o1) -> W d r o ->
    W d ((n, t) :: r) ((d ++ [n], t) :: (x :: o1) ++ o).

Lemma insert_perm x l : Permutation (insert_name x l) (x :: l).
Proof using.
  induction l as [|y l IH]; [reflexivity|]. cbn. destruct (bytes_cmp _ _); try reflexivity.
  rewrite IH. apply perm_swap.
Qed.
Lemma sort_perm l : Permutation (sort_names l) l.
Proof using. induction l as [|x l IH]; [reflexivity|]. cbn. now rewrite insert_perm, IH. Qed.

Lemma ftree_ind2 (P : ftree -> Prop) : (forall i ch, Forall (fun x => P (snd x)) ch -> P (FT i ch)) ->
  forall t, P t.
Proof using.
  intros H. fix IH 1. intros [i ch]. apply H.
  induction ch as [|[n t] ch IHc]; constructor; [apply IH|apply IHc].
Qed.

Lemma accepted_dec i t : accepted D i t \/ ~ accepted D i t.
Proof using.
  unfold accepted. destruct (t_gone t); [right; intros [H _]; discriminate|].
  destruct (D i t) as [[]|]; [right|left|destruct (t_isdir t); [left|right]|right];
   try (split; [reflexivity|]; auto; fail); intros [_ [H|[H1 H2]]]; discriminate.
Qed.

Lemma W_ex_list d l : Forall (fun x => forall i, exists o, W i (sort_names (t_ch (snd x))) o) l -> exists o, W d l o.
Proof using.
  induction 1 as [|[n t] l H _ [o IH]]; [exists []; constructor|]. cbn [snd] in H.
  destruct (accepted_dec (d ++ [n]) t) as [[G A]|A]; [|exists o; now constructor].
  destruct (H (d ++ [n])) as [o1 H1].
  destruct A as [A|[A1 A2]].
  - destruct (t_isdir t) eqn:E; eexists; [eapply W_dir|eapply W_file]; eauto.
  - destruct o1; eexists; [eapply W_scan0|eapply W_scan1]; eauto.
Qed.
Lemma W_ex t : forall i, exists o, W i (sort_names (t_ch t)) o.
Proof using.
  induction t as [fi ch IH] using ftree_ind2. intros i. apply W_ex_list. cbn [t_ch].
  eapply Permutation_Forall; [symmetry; apply sort_perm|exact IH].
Qed.

(** sortedness of directory listings *)
Definition name_lt (a b : bytes * ftree) : Prop := bytes_cmp (fst a) (fst b) = Lt.
Inductive sorted_names : list (bytes * ftree) -> Prop :=
| SN_nil : sorted_names []
| SN_cons : forall x l, Forall (name_lt x) l -> sorted_names l -> sorted_names (x :: l).

Lemma bytes_cmp_eq x y : bytes_cmp x y = Eq <-> x = y.
Proof using. apply (gc_eq _ bytes_good). Qed.
Lemma insert_sorted x l : sorted_names l -> ~ In (fst x) (map fst l) -> sorted_names (insert_name x l).
Proof using.
  induction 1 as [|y l F S IH]; intros N; cbn; [repeat constructor|].
  destruct (bytes_cmp (fst x) (fst y)) eqn:E.
  - apply bytes_cmp_eq in E. destruct N; now left.
  - constructor; [|now constructor]. constructor; [exact E|].
    rewrite Forall_forall in *. intros z Hz. specialize (F z Hz).
    eapply (gc_trans _ bytes_good); eauto.
  - constructor.
    + eapply Permutation_Forall; [symmetry; apply insert_perm|]. constructor; [|exact F].
      unfold name_lt. rewrite (gc_opp _ bytes_good), E. reflexivity.
    + apply IH. intros H; apply N; now right.
Qed.
Lemma sort_sorted l : NoDup (map fst l) -> sorted_names (sort_names l).
Proof using.
  induction l as [|x l IH]; cbn; intros N; [constructor|]. inversion N; subst.
  apply insert_sorted; auto. intros H. apply H1.
  eapply Permutation_in; [|exact H]. apply Permutation_map, sort_perm.
Qed.

Lemma lt_app d x y : idx_lt x y -> idx_lt (d ++ x) (d ++ y).
Proof using.
  unfold idx_lt. intros H; induction d as [|a d IH]; cbn; [exact H|].
  now rewrite (proj2 (bytes_cmp_eq a a) eq_refl).
Qed.
Lemma lt_names d n m : bytes_cmp n m = Lt -> idx_lt (d ++ [n]) (d ++ [m]).
Proof using. intros H. apply lt_app. unfold idx_lt; cbn. now rewrite H. Qed.
Lemma dir_lt d n : idx_lt d (d ++ [n]).
Proof using.
  destruct (prefix_le d (d ++ [n])) as [H|H]; [now exists [n]| |exact H].
  rewrite <- (app_nil_r d) in H at 1. apply app_inv_head in H; discriminate.
Qed.
(** after everything below [i] *)
Definition past (i j : idx) : Prop := idx_lt i j /\ ~ prefix i j.
Lemma past_below d x j : past d j -> prefix d x -> past x j.
Proof using.
  intros [L N] P. split.
  - destruct (idx_trichotomy x j) as [H|[H|H]]; [exact H|subst; contradiction|].
    exfalso. apply N. eapply prefix_between; eauto.
  - intros H. apply N. eapply prefix_trans; eauto.
Qed.
Lemma next_past d n m j : bytes_cmp n m = Lt -> from (d ++ [m]) j -> past (d ++ [n]) j.
Proof using.
  intros L F. assert (L1 : idx_lt (d ++ [n]) j).
  { destruct F as [<-|F]; [now apply lt_names|]. eapply idx_lt_trans; [apply lt_names; exact L|exact F]. }
  split; [exact L1|]. intros P.
  assert (prefix (d ++ [n]) (d ++ [m])) as [r E].
  { destruct F as [<-|F]; [exact P|]. eapply prefix_between; [right; now apply lt_names| |]; eauto. }
  rewrite <- app_assoc in E. apply app_inv_head in E. injection E as -> E.
  rewrite (proj2 (bytes_cmp_eq n n) eq_refl) in L. discriminate.
Qed.

(** what may still be asked when the entries [l] of [d] remain *)
Definition fut (d : idx) (l : list (bytes * ftree)) (j : idx) : Prop :=
  match l with [] => past d j | (n, _) :: _ => from (d ++ [n]) j end.
Lemma fut_next d n t r j : sorted_names ((n, t) :: r) -> fut d r j -> past (d ++ [n]) j.
Proof using.
  intros S H. inversion S; subst. destruct r as [|[m u] r]; cbn [fut] in H.
  - eapply past_below; [exact H|now exists [n]].
  - inversion H2; subst. eapply next_past; eauto.
Qed.
Lemma fut_start d l j : fut d l j -> idx_lt d j.
Proof using.
  destruct l as [|[n t] l]; cbn [fut]; [intros [H _]; exact H|].
  intros [<-|H]; [apply dir_lt|]. eapply idx_lt_trans; [apply dir_lt|exact H].
Qed.

Definition prepend (o : list (idx * ftree)) (r : option (option (list (idx * ftree)))) :=
  match r with Some (Some l) => Some (Some (o ++ l)) | r => r end.
Lemma prepend_prepend a b r : prepend a (prepend b r) = prepend (a ++ b) r.
Proof using. destruct r as [[l|]|]; cbn; try reflexivity. now rewrite app_assoc. Qed.
Lemma prepend_nil r : prepend [] r = r.
Proof using. now destruct r as [[l|]|]. Qed.

(** trees with unique names, and sorted listings of such *)
Lemma wf_sorted t : wf_tree t -> sorted_names (sort_names (t_ch t)) /\ Forall (fun x => wf_tree (snd x)) (sort_names (t_ch t)).
Proof using.
  intros [i ch N F]. cbn. split; [now apply sort_sorted|].
  eapply Permutation_Forall; [symmetry; apply sort_perm|exact F].
Qed.

Lemma step_same fs fs' d x r r' st dl n : gen_next c fs d (x :: r) = gen_next c fs' d r' ->
  iter_run c n (mk_iter ((d, x :: r) :: st) dl fs) = iter_run c n (mk_iter ((d, r') :: st) dl fs').
Proof using.
  intros E. destruct n; [reflexivity|]. cbn [iter_run]. unfold iter_step; cbn [it_stack it_fs it_delayed].
  now rewrite E.
Qed.

Lemma run_step s o s' n : iter_step c s = SStep o s' -> iter_run c (S n) s = prepend o (iter_run c n s').
Proof using. intros E. cbn [iter_run]. rewrite E. now destruct (iter_run c n s') as [[?|]|]. Qed.

Definition after (dl o : list (idx * ftree)) : list (idx * ftree) := match o with [] => removelast dl | _ => [] end.
Definition shown (dl o : list (idx * ftree)) : list (idx * ftree) := match o with [] => [] | _ => dl ++ o end.

Lemma run_list d l o : W d l o -> sorted_names l -> Forall (fun x => wf_tree (snd x)) l ->
  forall fs st dl, inv (fut d l) fs ->
  exists n fs', inv (past d) fs' /\
    forall m, iter_run c (n + m) (mk_iter ((d, l) :: st) dl fs) =
              prepend (shown dl o) (iter_run c m (mk_iter st (after dl o) fs')).
Proof using T0 F0.
  induction 1 as [d|d n t r o A _ IH|d n t r o G A E _ IH|d n t r o1 o G A E _ IH1 _ IH|
                  d n t r o G A E _ IH1 _ IH|d n t r x o1 o G A E _ IH1 _ IH]; intros S F fs st dl I.
  - exists 1%nat, fs. split; [exact I|]. intros m. cbn. 
    now destruct (iter_run c m _) as [[?|]|].
  - destruct (gen_entry fs d n t r I) as [fs1 [I1 E]].
    assert (E' : gen_next c fs d ((n, t) :: r) = gen_next c fs1 d r).
    { rewrite E. unfold accepted in A. destruct (t_gone t); [reflexivity|].
      destruct (D (d ++ [n]) t) as [[]|]; try reflexivity; [tauto|].
      destruct (t_isdir t); [tauto|reflexivity]. }
    inversion S; inversion F; subst.
    destruct (IH H2 H6 fs1 st dl) as [k [fs2 [I2 R]]].
    { eapply inv_weaken; [|exact I1]. intros j Hj. now apply (fut_next d n t r). }
    exists k, fs2. split; [exact I2|]. intros m. now rewrite (step_same _ _ _ _ _ _ _ _ _ E').
  - destruct (gen_entry fs d n t r I) as [fs1 [I1 E']]. rewrite G, A in E'.
    inversion S; inversion F; subst.
    destruct (IH H2 H6 fs1 st []) as [k [fs2 [I2 R]]].
    { eapply inv_weaken; [|exact I1]. intros j Hj. now apply (fut_next d n t r). }
    exists (1 + k)%nat, fs2. split; [exact I2|]. intros m. cbn [plus].
    erewrite run_step by (unfold iter_step; cbn [it_stack it_fs it_delayed]; rewrite E', E; reflexivity).
    rewrite R. rewrite prepend_prepend. assert (after [] o = []) as -> by now destruct o.
    assert (shown [] o = o) as -> by now destruct o.
    cbn [after shown]. now rewrite <- app_assoc.
  - destruct (gen_entry fs d n t r I) as [fs1 [I1 E']]. rewrite G, A in E'.
    inversion S; inversion F; subst. cbn [snd] in H5. destruct (wf_sorted _ H5) as [S1 F1].
    destruct (IH1 S1 F1 fs1 ((d, r) :: st) []) as [k1 [fs2 [I2 R1]]].
    { eapply inv_weaken; [|exact I1]. intros j Hj. eapply fut_start; eauto. }
    destruct (IH H2 H6 fs2 st []) as [k [fs3 [I3 R]]].
    { eapply inv_weaken; [|exact I2]. intros j Hj. now apply (fut_next d n t r). }
    exists (1 + (k1 + k))%nat, fs3. split; [exact I3|]. intros m. cbn [plus].
    erewrite run_step by (unfold iter_step; cbn [it_stack it_fs it_delayed]; rewrite E', E; reflexivity).
    rewrite <- Nat.add_assoc, R1.
    assert (after [] o1 = []) as -> by now destruct o1.
    rewrite R, !prepend_prepend.
    assert (after [] o = []) as -> by now destruct o.
    assert (shown [] o1 = o1) as -> by now destruct o1. 
    assert (shown [] o = o) as -> by now destruct o.
    cbn [after shown]. now rewrite <- !app_assoc.
  - destruct (gen_entry fs d n t r I) as [fs1 [I1 E']]. rewrite G, A, E in E'.
    inversion S; inversion F; subst. cbn [snd] in H5. destruct (wf_sorted _ H5) as [S1 F1].
    destruct (IH1 S1 F1 fs1 ((d, r) :: st) (dl ++ [(d ++ [n], t)])) as [k1 [fs2 [I2 R1]]].
    { eapply inv_weaken; [|exact I1]. intros j Hj. eapply fut_start; eauto. }
    destruct (IH H2 H6 fs2 st dl) as [k [fs3 [I3 R]]].
    { eapply inv_weaken; [|exact I2]. intros j Hj. now apply (fut_next d n t r). }
    exists (1 + (k1 + k))%nat, fs3. split; [exact I3|]. intros m. cbn [plus].
    erewrite run_step by (unfold iter_step; cbn [it_stack it_fs it_delayed]; rewrite E'; reflexivity).
    rewrite <- Nat.add_assoc, R1. cbn [after shown]. rewrite removelast_last, R, !prepend_prepend. reflexivity.
  - destruct (gen_entry fs d n t r I) as [fs1 [I1 E']]. rewrite G, A, E in E'.
    inversion S; inversion F; subst. cbn [snd] in H5. destruct (wf_sorted _ H5) as [S1 F1].
    destruct (IH1 S1 F1 fs1 ((d, r) :: st) (dl ++ [(d ++ [n], t)])) as [k1 [fs2 [I2 R1]]].
    { eapply inv_weaken; [|exact I1]. intros j Hj. eapply fut_start; eauto. }
    destruct (IH H2 H6 fs2 st []) as [k [fs3 [I3 R]]].
    { eapply inv_weaken; [|exact I2]. intros j Hj. now apply (fut_next d n t r). }
    exists (1 + (k1 + k))%nat, fs3. split; [exact I3|]. intros m. cbn [plus].
    erewrite run_step by (unfold iter_step; cbn [it_stack it_fs it_delayed]; rewrite E'; reflexivity).
    rewrite <- Nat.add_assoc, R1. cbn [after shown]. rewrite R, !prepend_prepend.
    assert (after [] o = []) as -> by now destruct o.
    assert (shown [] o = o) as -> by now destruct o.
    cbn [app]. now rewrite <- !app_assoc.
Qed.

(** ** What the recursive description contains *)
Lemma visited_in d l i u : visited D d l i u -> exists n t, In (n, t) l /\ accepted D (d ++ [n]) t /\ prefix (d ++ [n]) i.
Proof using.
  induction 1 as [d l n t I A|d l n t i u I A E _ IH].
  - exists n, t. split; [exact I|]. split; [exact A|apply prefix_refl].
  - exists n, t. split; [exact I|]. split; [exact A|]. destruct IH as [m [v [_ [_ P]]]].
    eapply prefix_trans; [|exact P]. now exists [m].
Qed.
Lemma visited_accepted d l i u : visited D d l i u -> accepted D i u.
Proof using. now induction 1. Qed.
Lemma visited_sub d l l' i u : (forall x, In x l -> In x l') -> visited D d l i u -> visited D d l' i u.
Proof using. intros S H. inversion H; subst; [apply V_here|eapply V_below]; eauto. Qed.

Lemma visited_cons d n t r i u : visited D d ((n, t) :: r) i u <->
  (accepted D (d ++ [n]) t /\ (i = d ++ [n] /\ u = t \/ t_isdir t = true /\ visited D (d ++ [n]) (t_ch t) i u)) \/
  visited D d r i u.
Proof using.
  split.
  - intros H; inversion H; subst.
    + destruct H0 as [H0|H0]; [injection H0 as -> ->; left; split; auto|right; now constructor].
    + destruct H0 as [H0|H0]; [injection H0 as -> ->; left; split; auto|right; eapply V_below; eauto].
  - intros [[A [[-> ->]|[E V]]]|V].
    + constructor; [now left|exact A].
    + eapply V_below; [now left| | |]; eauto.
    + eapply visited_sub; [|exact V]. intros; now right.
Qed.
Lemma names_prefix_inj d n m i : prefix (d ++ [n]) i -> prefix (d ++ [m]) i -> n = m.
Proof using.
  intros [a ->] [b E]. rewrite <- !app_assoc in E. apply app_inv_head in E. now injection E.
Qed.
Lemma sorted_not_in n t r : sorted_names ((n, t) :: r) -> ~ In n (map fst r).
Proof using.
  intros S H. inversion S; subst. apply in_map_iff in H as [[m u] [E I]]. cbn in E; subst m.
  rewrite Forall_forall in H2. specialize (H2 _ I). unfold name_lt in H2; cbn in H2.
  rewrite (proj2 (bytes_cmp_eq n n) eq_refl) in H2; discriminate.
Qed.

Lemma W_spec : forall d l o, W d l o -> sorted_names l -> Forall (fun x => wf_tree (snd x)) l ->
  forall i u, In (i, u) o <-> chosen D d l i u.
Proof using.
  assert (SC : forall d t i u, chosen D d (sort_names (t_ch t)) i u <-> chosen D d (t_ch t) i u).
  { intros d0 t i u. assert (forall i u, visited D d0 (sort_names (t_ch t)) i u <-> visited D d0 (t_ch t) i u) as V.
    { intros i0 u0. split; apply visited_sub; intros x Hx;
        [eapply Permutation_in; [apply sort_perm|exact Hx]|eapply Permutation_in; [symmetry; apply sort_perm|exact Hx]]. }
    unfold chosen. rewrite V. split; intros [H1 [H2|[r [v [N [H2 H3]]]]]]; split; auto; right; exists r, v; split; auto; split; auto; now apply V. }
  (* the part of the remaining entries *)
  assert (CR : forall d n t r, sorted_names ((n, t) :: r) -> forall i u,
     chosen D d ((n, t) :: r) i u <->
     chosen D d r i u \/
     (accepted D (d ++ [n]) t /\
       ((i = d ++ [n] /\ u = t /\ (D i u = Some Include \/ t_isdir t = true /\ exists j v, visited D (d ++ [n]) (t_ch t) j v /\ D j v = Some Include))
        \/ t_isdir t = true /\ chosen D (d ++ [n]) (t_ch t) i u))).
  { intros d n t r S i u. pose proof (sorted_not_in _ _ _ S) as N.
    assert (NP : forall j v, visited D d r j v -> ~ prefix (d ++ [n]) j).
    { intros j v V P. destruct (visited_in _ _ _ _ V) as [m [w [I [_ P2]]]].
      rewrite (names_prefix_inj _ _ _ _ P P2) in N. apply N, in_map_iff. now exists (m, w). }
    assert (PB : forall j v, visited D (d ++ [n]) (t_ch t) j v -> prefix (d ++ [n]) j).
    { intros j v V. destruct (visited_in _ _ _ _ V) as [m [w [I [_ P2]]]].
      eapply prefix_trans; [|exact P2]. now exists [m]. }
    split.
    - intros [V C]. apply visited_cons in V as [[A V]|V].
      + right. split; [exact A|]. destruct V as [[-> ->]|[E V]].
        * left. repeat split; auto. destruct C as [C|[q [v [Q [V C]]]]]; [now left|].
          apply visited_cons in V as [[_ [[E _]|[E V]]]|V].
          -- exfalso. rewrite <- (app_nil_r (d ++ [n])) in E at 2. apply app_inv_head in E. now subst q.
          -- right. eauto.
          -- destruct (NP _ _ V). now exists q.
        * right. split; [exact E|]. split; [exact V|]. destruct C as [C|[q [v [Q [V2 C]]]]]; [now left|].
          right. exists q, v. repeat split; auto.
          apply visited_cons in V2 as [[_ [[E2 _]|[_ V2]]]|V2]; [|exact V2|].
          -- exfalso. destruct (PB _ _ V) as [w ->]. rewrite <- (app_nil_r (d ++ [n])) in E2 at 2.
             rewrite <- !app_assoc in E2. do 2 apply app_inv_head in E2.
             destruct w; [cbn in E2; congruence|discriminate].
          -- destruct (NP _ _ V2). destruct (PB _ _ V) as [w ->]. exists (w ++ q). now rewrite <- !app_assoc.
      + left. split; [exact V|]. destruct C as [C|[q [v [Q [V2 C]]]]]; [now left|].
        right. exists q, v. repeat split; auto.
        apply visited_cons in V2 as [[_ V2]|V2]; [|exact V2]. exfalso.
        destruct (visited_in _ _ _ _ V) as [m [w [I [_ P2]]]].
        assert (P3 : prefix (d ++ [n]) (i ++ q)).
        { destruct V2 as [[-> _]|[_ V2]]; [apply prefix_refl|eapply PB; eauto]. }
        assert (P4 : prefix (d ++ [m]) (i ++ q)) by (eapply prefix_trans; [exact P2|now exists q]).
        rewrite (names_prefix_inj _ _ _ _ P3 P4) in N. apply N, in_map_iff. now exists (m, w).
    - intros [[V C]|[A [[-> [-> C]]|[E [V C]]]]].
      + split; [apply visited_cons; now right|]. destruct C as [C|[q [v [Q [V2 C]]]]]; [now left|].
        right. exists q, v. repeat split; auto. apply visited_cons; now right.
      + split; [apply visited_cons; left; auto|]. destruct C as [C|[E [j [v [V C]]]]]; [now left|].
        right. destruct (visited_in _ _ _ _ V) as [m [w [_ [_ [q P]]]]].
        exists (m :: q), v. split; [discriminate|].
        replace ((d ++ [n]) ++ m :: q) with j by (rewrite P; now rewrite <- app_assoc).
        split; [apply visited_cons; left; auto|exact C].
      + split; [apply visited_cons; left; auto|]. destruct C as [C|[q [v [Q [V2 C]]]]]; [now left|].
        right. exists q, v. repeat split; auto. apply visited_cons; left; auto. }
  induction 1 as [d|d n t r o A _ IH|d n t r o G A E _ IH|d n t r o1 o G A E _ IH1 _ IH|
                  d n t r o G A E _ IH1 _ IH|d n t r x o1 o G A E _ IH1 _ IH]; intros S F i u.
  - split; [intros []|]. intros [V _]. apply visited_in in V as [m [w [[] _]]].
  - inversion S; inversion F; subst. rewrite CR by exact S. rewrite (IH H2 H6). tauto.
  - inversion S; inversion F; subst. rewrite CR by exact S. cbn [In]. rewrite (IH H2 H6).
    assert (accepted D (d ++ [n]) t) by (split; auto). rewrite E.
    split; [intros [[= <- <-]|H7]; auto 10|intros [H7|[_ [[-> [-> _]]|[H7 _]]]]; auto; discriminate].
  - inversion S; inversion F; subst. rewrite CR by exact S. cbn [In]. rewrite in_app_iff, (IH H2 H6).
    cbn [snd] in H5. destruct (wf_sorted _ H5) as [S1 F1]. rewrite (IH1 S1 F1), SC, E.
    assert (accepted D (d ++ [n]) t) by (split; auto).
    split; [intros [[= <- <-]|[H7|H7]]; auto 10|intros [H7|[_ [[-> [-> _]]|[_ H7]]]]; auto].
  - inversion S; inversion F; subst. rewrite CR by exact S. rewrite (IH H2 H6).
    cbn [snd] in H5. destruct (wf_sorted _ H5) as [S1 F1].
    split; [now left|]. intros [H7|[_ H7]]; [exact H7|exfalso].
    destruct H7 as [[-> [-> [H7|[_ [j [v [V C]]]]]]]|[_ H7]]; [congruence| |].
    + specialize (IH1 S1 F1 j v). rewrite SC in IH1. destruct (proj2 IH1). split; auto.
    + specialize (IH1 S1 F1 i u). rewrite SC in IH1. destruct (proj2 IH1 H7).
  - inversion S; inversion F; subst. rewrite CR by exact S. change ((d ++ [n], t) :: (x :: o1) ++ o) with (((d ++ [n], t) :: nil) ++ (x :: o1) ++ o).
    rewrite !in_app_iff, (IH H2 H6).
    cbn [snd] in H5. destruct (wf_sorted _ H5) as [S1 F1]. rewrite (IH1 S1 F1 i u), SC, E.
    assert (accepted D (d ++ [n]) t) by (split; auto).
    assert (X : exists j v, visited D (d ++ [n]) (t_ch t) j v /\ D j v = Some Include).
    { destruct x as [j v]. pose proof (proj1 (IH1 S1 F1 j v) (or_introl eq_refl)) as C.
      rewrite SC in C. destruct C as [V [C|[q [w [_ [V2 C]]]]]]; eauto. }
    split; [intros [[[= <- <-]|[]]|[H7|H7]]; auto 10|intros [H7|[_ [[-> [-> _]]|[_ H7]]]]; auto].
    left; now left.
Qed.

Lemma W_names d l o : W d l o -> forall x, In x o -> exists n t, In (n, t) l /\ prefix (d ++ [n]) (fst x).
Proof using.
  induction 1 as [d|d n t r o A _ IH|d n t r o G A E _ IH|d n t r o1 o G A E _ IH1 _ IH|
                  d n t r o G A E _ IH1 _ IH|d n t r x o1 o G A E _ IH1 _ IH]; intros y Hy.
  - destruct Hy.
  - destruct (IH y Hy) as [m [u [I P]]]. exists m, u; split; [now right|exact P].
  - destruct Hy as [<-|Hy]; [exists n, t; split; [now left|apply prefix_refl]|].
    destruct (IH y Hy) as [m [u [I P]]]. exists m, u; split; [now right|exact P].
  - destruct Hy as [<-|Hy]; [exists n, t; split; [now left|apply prefix_refl]|].
    apply in_app_or in Hy as [Hy|Hy].
    + destruct (IH1 y Hy) as [m [u [I P]]]. exists n, t; split; [now left|].
      eapply prefix_trans; [|exact P]. now exists [m].
    + destruct (IH y Hy) as [m [u [I P]]]. exists m, u; split; [now right|exact P].
  - destruct (IH y Hy) as [m [u [I P]]]. exists m, u; split; [now right|exact P].
  - destruct Hy as [<-|Hy]; [exists n, t; split; [now left|apply prefix_refl]|].
    apply in_app_or in Hy as [Hy|Hy].
    + destruct (IH1 y Hy) as [m [u [I P]]]. exists n, t; split; [now left|].
      eapply prefix_trans; [|exact P]. now exists [m].
    + destruct (IH y Hy) as [m [u [I P]]]. exists m, u; split; [now right|exact P].
Qed.
Lemma sorted_app {A} (key : A -> idx) l1 l2 : sorted_by key l1 -> sorted_by key l2 ->
  (forall x y, In x l1 -> In y l2 -> idx_lt (key x) (key y)) -> sorted_by key (l1 ++ l2).
Proof using.
  unfold sorted_by. induction 1 as [|x l1 S IH F]; cbn; intros S2 H; [exact S2|].
  constructor; [apply IH; auto|]. apply Forall_app; split; [exact F|].
  apply Forall_forall; intros y Hy; apply H; auto.
Qed.
Lemma W_sorted : forall d l o, W d l o -> sorted_names l -> Forall (fun x => wf_tree (snd x)) l -> sorted_by fst o.
Proof using.
  (* things in [d/n] come before those in later entries *)
  assert (LT : forall d n t r o, sorted_names ((n, t) :: r) -> W d r o ->
     forall i y, prefix (d ++ [n]) i -> In y o -> idx_lt i (fst y)).
  { intros d n t r o S w i y P Hy. destruct (W_names _ _ _ w y Hy) as [m [u [I P2]]].
    inversion S; subst. rewrite Forall_forall in H1. specialize (H1 _ I).
    apply (past_below (d ++ [n])); [|exact P]. apply (next_past d n m); [exact H1|].
    destruct (prefix_le _ _ P2) as [->|L]; [now left|now right]. }
  assert (LD : forall i ch o y, W i ch o -> In y o -> idx_lt i (fst y) /\ prefix i (fst y)).
  { intros i ch o y w Hy. destruct (W_names _ _ _ w y Hy) as [m [u [I P]]]. split.
    - destruct (prefix_le _ _ P) as [<-|L]; [apply dir_lt|]. eapply idx_lt_trans; [apply dir_lt|exact L].
    - eapply prefix_trans; [|exact P]. now exists [m]. }
  induction 1 as [d|d n t r o A w IH|d n t r o G A E w IH|d n t r o1 o G A E w1 IH1 w IH|
                  d n t r o G A E w1 IH1 w IH|d n t r x o1 o G A E w1 IH1 w IH]; intros S F.
  - constructor.
  - inversion S; inversion F; subst; auto.
  - inversion S; inversion F; subst. constructor; [now apply IH|].
    apply Forall_forall; intros y Hy. eapply LT; eauto. apply prefix_refl.
  - inversion S; inversion F; subst. cbn [snd] in H5. destruct (wf_sorted _ H5) as [S1 F1].
    constructor.
    + apply sorted_app; [apply IH1; auto|apply IH; auto|]. intros y z Hy Hz.
      eapply LT; eauto. eapply LD; eauto.
    + apply Forall_forall; intros y Hy. apply in_app_or in Hy as [Hy|Hy]; [eapply LD; eauto|].
      eapply LT; eauto. apply prefix_refl.
  - inversion S; inversion F; subst; auto.
  - inversion S; inversion F; subst. cbn [snd] in H5. destruct (wf_sorted _ H5) as [S1 F1].
    constructor.
    + apply sorted_app; [apply IH1; auto|apply IH; auto|]. intros y z Hy Hz.
      eapply LT; eauto. eapply LD; eauto.
    + apply Forall_forall; intros y Hy. apply in_app_or in Hy as [Hy|Hy]; [eapply LD; eauto|].
      eapply LT; eauto. apply prefix_refl.
Qed.

Theorem iterate_spec root : wf_tree root -> t_isdir root = true ->
  exists n o, select_iter c n fs0 root = Some (Some (([], root) :: o)) /\
    sorted_by fst o /\ (forall i t, In (i, t) o <-> chosen D [] (t_ch root) i t) /\
    (forall x, In x o -> fst x <> []).
Proof using T0 F0.
  intros Wf E. destruct (W_ex root []) as [o w]. destruct (wf_sorted _ Wf) as [S F].
  destruct (run_list _ _ _ w S F fs0 [] []) as [n [fs' [_ R]]].
  { split; [|exact F0]. rewrite <- F0. clear. induction fs0 as [|f fs IH]; constructor; [|exact IH].
    destruct f; cbn; try tauto. }
  exists (n + 1)%nat, o. split.
  - unfold select_iter. rewrite E, R. cbn [iter_run iter_step it_stack prepend]. rewrite app_nil_r.
    now destruct o.
  - split; [eapply W_sorted; eauto|]. split.
    + intros i t. rewrite (W_spec _ _ _ w S F). unfold chosen.
      assert (V : forall i u, visited D [] (sort_names (t_ch root)) i u <-> visited D [] (t_ch root) i u).
      { intros i0 u0. split; apply visited_sub; intros x Hx;
        [eapply Permutation_in; [apply sort_perm|exact Hx]|eapply Permutation_in; [symmetry; apply sort_perm|exact Hx]]. }
      rewrite V. split; intros [H1 [H2|[r [v [N [H2 H3]]]]]]; split; auto; right; exists r, v; split; auto; split; auto; now apply V.
    + intros x Hx. destruct (W_names _ _ _ w x Hx) as [m [u [_ [q Eq]]]]. intros Z. apply (eq_trans (eq_sym Z)) in Eq. discriminate Eq.
Qed.
End Ctx.
