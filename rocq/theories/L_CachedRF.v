From Coq Require Import List ZArith Bool Ascii Lia Sorted.
From Verif Require Import Base L_Base M_Iter L_Iter M_Quoting M_Time M_IncName M_CachedRF S_CachedRF.
Import List ListNotations.
Local Open Scope Z_scope.

Lemma idx_cmp_app p x y : idx_cmp (p ++ x) (p ++ y) = idx_cmp x y.
Proof.
  unfold idx_cmp. induction p as [|a p IH]; [reflexivity|]. cbn.
  assert (E : bytes_cmp a a = Eq) by now apply (gc_eq _ bytes_good). now rewrite E.
Qed.
Lemma idx_lt_app p x y : idx_lt (p ++ x) (p ++ y) <-> idx_lt x y.
Proof. unfold idx_lt. now rewrite idx_cmp_app. Qed.
Lemma parent_split (x : idx) : x <> [] -> x = removelast x ++ [last x []].
Proof. apply app_removelast_last. Qed.
Lemma removelast_snoc {A} (d : list A) a : removelast (d ++ [a]) = d.
Proof. apply removelast_last. Qed.

Lemma idx_lt_le_trans x y z : idx_lt x y -> (y = z \/ idx_lt y z) -> idx_lt x z.
Proof. intros H [<-|H2]; [exact H|]. eapply idx_lt_trans; eassumption. Qed.
Lemma idx_le_lt_trans x y z : (x = y \/ idx_lt x y) -> idx_lt y z -> idx_lt x z.
Proof. intros [->|H] H2; [exact H2|]. eapply idx_lt_trans; eassumption. Qed.

(* between two files of a directory there is only what is below one of them *)
Lemma sandwich k j e : k <> [] -> e <> [] -> removelast k = removelast e -> (k = j \/ idx_lt k j) -> idx_lt j e ->
  removelast j <> removelast e ->
  forall x, x <> [] -> removelast x = removelast j -> idx_lt x e.
Proof.
  intros Hk He Ep Hkj Hje Hp x Hx Ex.
  set (p := removelast e) in *. assert (Ee : e = p ++ [last e []]) by now apply parent_split.
  assert (Ek : k = p ++ [last k []]) by (rewrite <- Ep; now apply parent_split).
  assert (Pk : idx_lt p k). { destruct (prefix_le p k) as [K|K]; [now exists [last k []]| |exact K].
    exfalso. rewrite Ek in K. rewrite <- (app_nil_r p) in K at 1. apply app_inv_head in K. discriminate. }
  assert (Pj : prefix p j).
  { apply (prefix_between p j e); [right; eapply idx_lt_le_trans; eassumption|exact Hje|]. rewrite Ee. now eexists. }
  destruct Pj as [w Ew]. destruct w as [|c r].
  { exfalso. rewrite app_nil_r in Ew. subst j. apply (idx_lt_irrefl p). eapply idx_lt_le_trans; eassumption. }
  destruct r as [|c2 r].
  { exfalso. apply Hp. rewrite Ew. apply removelast_snoc. }
  assert (Rj : removelast j = p ++ c :: removelast (c2 :: r)).
  { rewrite Ew. rewrite removelast_app by discriminate. reflexivity. }
  rewrite (parent_split x Hx), Ex, Rj, Ee, <- app_assoc. apply idx_lt_app.
  rewrite Ew, Ee in Hje. apply idx_lt_app in Hje. unfold idx_lt, idx_cmp in *. cbn in *.
  destruct (bytes_cmp c (last e [])); try discriminate; reflexivity.
Qed.

Section Cached.
Variable subs : idx -> list idx.
Hypothesis Hsort : forall d, StronglySorted idx_lt (subs d).
Hypothesis Hsub : forall d x, In x (subs d) -> x <> [] /\ removelast x = d.

Record inv (j : idx) (l : list idx) : Prop := {
  inv_sorted : StronglySorted idx_lt l;
  inv_asked : forall e, In e l -> In e (subs (removelast e)) /\
                exists k, k <> [] /\ removelast k = removelast e /\ (k = j \/ idx_lt k j);
  inv_full : forall e x, In e l -> In x (subs (removelast e)) -> (j = x \/ idx_lt j x) -> In x l }.
Lemma inv_nil j : inv j [].
Proof. split; [constructor|intros e []|intros e x []]. Qed.
Lemma inv_next i j l : idx_lt i j -> inv i l -> inv j l.
Proof using.
  intros Hij [H1 H2 H3]. split; [exact H1| |].
  - intros e He. destruct (H2 e He) as [A (k & B & C & D)]. split; [exact A|]. exists k. split; [exact B|]. split; [exact C|].
    right. eapply idx_le_lt_trans; eassumption.
  - intros e x He Hx Hj. apply (H3 e x He Hx). right. eapply idx_lt_le_trans; eassumption.
Qed.
Lemma inv_drop j e r : inv j (e :: r) -> idx_lt e j -> inv j r.
Proof using.
  intros [H1 H2 H3] He. inversion H1 as [|? ? S1 S2]; subst. split; [exact S1| |].
  - intros x Hx. apply H2. now right.
  - intros a x Ha Hx Hj. destruct (H3 a x (or_intror Ha) Hx Hj) as [<-|K]; [|exact K].
    exfalso. apply (idx_lt_irrefl e). eapply idx_lt_le_trans; [exact He|].
    destruct Hj as [->|Hj]; [now left|now right].
Qed.

Definition good_result (j : idx) (pre : list idx) (res : outcome * list idx * list idx) : Prop :=
  let '(o, l', calls) := res in
  inv j l' /\
  ((o = Found /\ In j (subs (removelast j)) /\ calls = pre ++ [j])
   \/ (o = NotFound /\ ~ In j (subs (removelast j)) /\ calls = pre)).

(* the directory of the file is in the list *)
Lemma phase_a j : forall l pre, inv j l ->
  (exists x, In x l /\ removelast x = removelast j /\ (x = j \/ idx_lt j x)) ->
  forall fuel, (length l < fuel)%nat -> exists res, get_rf subs fuel j l pre = Some res /\ good_result j pre res.
Proof using Hsort Hsub.
  induction l as [|e r IH]; intros pre I (x & Hx & Px & Jx) fuel Hf; [destruct Hx|].
  destruct fuel as [|fuel]; [lia|]. cbn [get_rf get_round].
  destruct (idx_eqb e j) eqn:E1.
  { apply idx_eqb_eq in E1. subst e. exists (Found, j :: r, pre ++ [j]). split; [reflexivity|]. split; [exact I|].
    left. split; [reflexivity|]. split; [|reflexivity]. apply (inv_asked _ _ I). now left. }
  apply idx_eqb_neq in E1. destruct (idx_ltb j e) eqn:E2.
  - apply idx_ltb_lt in E2.
    assert (Pe : removelast j = removelast e).
    { destruct (idx_eqb (removelast j) (removelast e)) eqn:E3; [now apply idx_eqb_eq|]. apply idx_eqb_neq in E3. exfalso.
      destruct (inv_asked _ _ I e (or_introl eq_refl)) as [A (k & B & C & D)].
      destruct (Hsub _ _ A) as [He _].
      assert (Hx0 : x <> []). { destruct (inv_asked _ _ I x Hx) as [A2 _]. now apply Hsub in A2. }
      pose proof (sandwich k j e B He C D E2 E3 x Hx0 Px) as K.
      destruct Hx as [<-|Hx]; [now apply idx_lt_irrefl in K|].
      pose proof (inv_sorted _ _ I) as SS. inversion SS as [|? ? S1 S2]; subst. rewrite Forall_forall in S2.
      apply (idx_lt_irrefl x). eapply idx_lt_trans; [exact K|]. now apply S2. }
    apply idx_eqb_eq in Pe. rewrite Pe. apply idx_eqb_eq in Pe.
    exists (NotFound, e :: r, pre). split; [reflexivity|]. split; [exact I|]. right. split; [reflexivity|]. split; [|reflexivity].
    intros K. rewrite Pe in K. destruct (inv_full _ _ I e j (or_introl eq_refl) K (or_introl eq_refl)) as [K2|K2]; [now apply E1|].
    pose proof (inv_sorted _ _ I) as SS. inversion SS as [|? ? S1 S2]; subst. rewrite Forall_forall in S2.
    apply (idx_lt_irrefl j). eapply idx_lt_trans; [exact E2|]. now apply S2.
  - assert (Le : idx_lt e j).
    { destruct (idx_trichotomy e j) as [H|[H|H]]; [exact H|now subst|]. apply idx_ltb_lt in H. congruence. }
    destruct (IH pre (inv_drop _ _ _ I Le)) with (fuel := fuel) as (res & G1 & G2).
    + exists x. split; [|now split]. destruct Hx as [<-|Hx]; [|exact Hx]. exfalso.
      apply (idx_lt_irrefl e). eapply idx_lt_le_trans; [exact Le|]. destruct Jx as [->|Jx]; [now left|now right].
    + cbn in Hf. lia.
    + now exists res.
Qed.

(* it is not *)
Lemma phase_b j : j <> [] -> (subs (removelast j) = [] \/ exists x, In x (subs (removelast j)) /\ (x = j \/ idx_lt j x)) ->
  forall l pre, inv j l -> (forall e, In e l -> removelast e <> removelast j) ->
  forall fuel, (length l + length (subs (removelast j)) + 1 < fuel)%nat ->
  exists res, get_rf subs fuel j l pre = Some res /\ good_result j (pre ++ [removelast j]) res.
Proof using Hsort Hsub.
  intros Hj HX. assert (EA : add_rfs subs j = match subs (removelast j) with [] => None | n => Some n end) by (destruct j; [congruence|reflexivity]).
  assert (EP : parent_call j = [removelast j]) by (destruct j; [congruence|reflexivity]).
  assert (HN : inv j (subs (removelast j))).
  { split; [apply Hsort| |].
    - intros e He. pose proof (Hsub _ _ He) as [K1 K2]. rewrite K2. split; [exact He|]. exists j. split; [exact Hj|]. split; [reflexivity|now left].
    - intros e x He Hx _. apply Hsub in He. destruct He as [_ <-]. exact Hx. }
  induction l as [|e r IH]; intros pre I HP fuel Hf.
  - destruct fuel as [|fuel]; [lia|].
    destruct (subs (removelast j)) as [|n ns] eqn:ES.
    { exists (NotFound, [], pre ++ [removelast j]). split; [cbn [get_rf get_round]; now rewrite EA, EP|].
      split; [apply inv_nil|]. right. split; [reflexivity|]. split; [|reflexivity]. rewrite ES. intros []. }
    destruct HX as [HX|HX]; [discriminate|].
    assert (XX : exists x, In x (n :: ns) /\ removelast x = removelast j /\ (x = j \/ idx_lt j x)).
    { destruct HX as (x & H1 & H2). exists x. split; [exact H1|]. split; [|exact H2]. apply (Hsub (removelast j) x). now rewrite ES. }
    destruct (phase_a j (n :: ns) (pre ++ [removelast j]) HN XX (S fuel)) as (res & G1 & G2); [cbn in *; lia|].
    exists res. split; [|exact G2]. rewrite <- G1. cbn [get_rf get_round]. now rewrite EA, EP.
  - destruct fuel as [|fuel]; [lia|]. cbn [get_rf get_round].
    destruct (idx_eqb e j) eqn:E1.
    { apply idx_eqb_eq in E1. subst e. exfalso. now apply (HP j (or_introl eq_refl)). }
    apply idx_eqb_neq in E1. destruct (idx_ltb j e) eqn:E2.
    + apply idx_ltb_lt in E2. destruct (idx_eqb (removelast j) (removelast e)) eqn:E3.
      { apply idx_eqb_eq in E3. exfalso. now apply (HP e (or_introl eq_refl)). }
      apply idx_eqb_neq in E3. rewrite EA, EP.
      destruct (subs (removelast j)) as [|n ns] eqn:ES.
      { eexists. split; [reflexivity|]. split; [exact I|]. right. split; [reflexivity|]. split; [|reflexivity]. rewrite ES. intros []. }
      destruct HX as [HX|HX]; [discriminate|].
      destruct (inv_asked _ _ I e (or_introl eq_refl)) as [A (k & B & C & D)].
      destruct (Hsub _ _ A) as [He _].
      assert (Lt : forall x y, In x (n :: ns) -> In y (e :: r) -> idx_lt x y).
      { intros x y Hx Hy. destruct (Hsub (removelast j) x) as [X1 X2]; [now rewrite ES|].
        assert (K : idx_lt x e) by (apply (sandwich k j e); assumption).
        destruct Hy as [<-|Hy]; [exact K|]. pose proof (inv_sorted _ _ I) as SS. inversion SS as [|? ? S1 S2]; subst.
        rewrite Forall_forall in S2. eapply idx_lt_trans; [exact K|]. now apply S2. }
      assert (I2 : inv j ((n :: ns) ++ e :: r)).
      { destruct HN as [N1 N2 N3]. destruct I as [I1 I2 I3]. split.
        - clear -N1 I1 Lt. revert N1 Lt. generalize (n :: ns) as a. induction a as [|x a IH]; intros N1 Lt; [exact I1|].
          inversion N1 as [|? ? S1 S2]; subst. cbn. constructor; [apply IH; [exact S1|intros; apply Lt; [now right|assumption]]|].
          apply Forall_app. split; [exact S2|]. apply Forall_forall. intros y Hy. apply Lt; [now left|exact Hy].
        - intros y Hy. apply in_app_or in Hy. destruct Hy as [Hy|Hy]; [now apply N2|now apply I2].
        - intros y z Hy Hz Hjz. apply in_or_app. apply in_app_or in Hy. destruct Hy as [Hy|Hy]; [left; eapply N3|right; eapply I3]; eassumption. }
      destruct HX as (x & X1 & X2).
      destruct (phase_a j ((n :: ns) ++ e :: r) (pre ++ [removelast j]) I2) with (fuel := fuel) as (res & G1 & G2).
      * exists x. split; [apply in_or_app; now left|]. split; [|exact X2]. apply (Hsub (removelast j) x). now rewrite ES.
      * rewrite app_length. cbn in *. lia.
      * exists res. split; [exact G1|exact G2].
    + assert (Le : idx_lt e j).
      { destruct (idx_trichotomy e j) as [H|[H|H]]; [exact H|now subst|]. apply idx_ltb_lt in H. congruence. }
      apply IH; [eapply inv_drop; eassumption|intros y Hy; apply HP; now right|cbn in Hf; lia].
Qed.

Lemma get_mono fuel j l pre res : get_rf subs fuel j l pre = Some res -> forall n, get_rf subs (n + fuel) j l pre = Some res.
Proof using.
  revert l pre. induction fuel as [|f IH]; intros l pre H n; [discriminate|].
  rewrite Nat.add_succ_r. cbn [get_rf] in *. destruct (get_round subs j l pre) as [[l' c']|r]; [now apply IH|exact H].
Qed.

Definition answered (j : idx) : Prop :=
  subs (removelast j) = [] \/ exists x, In x (subs (removelast j)) /\ (x = j \/ idx_lt j x).
Lemma get_ok j l : j <> [] -> answered j -> inv j l ->
  exists N o l' calls, (forall fuel, (N <= fuel)%nat -> get_rf subs fuel j l [] = Some (o, l', calls)) /\ inv j l'
    /\ (o = Found <-> In j (subs (removelast j))) /\ (o = NotFound <-> ~ In j (subs (removelast j)))
    /\ (calls = match o with Found => [j] | _ => [] end \/ calls = removelast j :: match o with Found => [j] | _ => [] end).
Proof using Hsort Hsub.
  intros Hj HX I.
  assert (K : exists N pre res, (pre = [] \/ pre = [removelast j]) /\ get_rf subs N j l [] = Some res /\ good_result j pre res).
  { destruct (existsb (fun e => idx_eqb (removelast e) (removelast j)) l) eqn:E.
    - apply existsb_exists in E. destruct E as (e & He & E). apply idx_eqb_eq in E.
      destruct HX as [HX|(x & X1 & X2)].
      { exfalso. destruct (inv_asked _ _ I e He) as [A _]. rewrite E, HX in A. destruct A. }
      assert (Hx : In x l). { apply (inv_full _ _ I e x He); [now rewrite E|]. destruct X2 as [->|X2]; [now left|now right]. }
      destruct (phase_a j l [] I) with (fuel := S (length l)) as (res & G1 & G2); [|lia|].
      + exists x. split; [exact Hx|]. split; [|exact X2]. now apply (Hsub (removelast j) x).
      + exists (S (length l)), [], res. split; [now left|now split].
    - destruct (phase_b j Hj HX l [] I) with (fuel := S (length l + length (subs (removelast j)) + 1)) as (res & G1 & G2); [|lia|].
      + intros e He Ke. apply not_true_iff_false in E. apply E. apply existsb_exists. exists e. split; [exact He|now apply idx_eqb_eq].
      + eexists _, [removelast j], res. split; [now right|]. split; [exact G1|exact G2]. }
  destruct K as (N & pre & [[o l'] calls] & HP & G1 & G2 & G3).
  exists N, o, l', calls. split.
  { intros fuel Hf. replace fuel with ((fuel - N) + N)%nat by lia. now apply get_mono. }
  split; [exact G2|].
  destruct G3 as [(-> & G3 & ->)|(-> & G3 & ->)].
  - split; [tauto|]. split; [split; [discriminate|intros K; now apply K in G3]|].
    destruct HP as [->| ->]; [now left|now right].
  - split; [split; [discriminate|intros K; now apply G3 in K]|]. split; [tauto|].
    destruct HP as [->| ->]; [now left|now right].
Qed.

Definition calls_of (j : idx) (o : outcome) (calls : list idx) : Prop :=
  calls = match o with Found => [j] | _ => [] end \/ calls = removelast j :: match o with Found => [j] | _ => [] end.
Definition right_answer (j : idx) (a : outcome * list idx) : Prop :=
  (fst a = Found <-> In j (subs (removelast j))) /\ (fst a = NotFound <-> ~ In j (subs (removelast j)))
  /\ calls_of j (fst a) (snd a).
Lemma requests_ok js : forall l, StronglySorted idx_lt js -> ~ In [] js -> Forall answered js ->
  (forall j, In j js -> inv j l) ->
  exists N rs, (forall fuel, (N <= fuel)%nat -> requests subs fuel l js = Some rs) /\ Forall2 right_answer js rs.
Proof using Hsort Hsub.
  induction js as [|j js IH]; intros l HS HR HA HI.
  - exists O, []. split; [reflexivity|constructor].
  - inversion HS as [|? ? S1 S2]; subst. inversion HA as [|? ? A1 A2]; subst.
    destruct (get_ok j l) as (N & o & l' & calls & G1 & G2 & G3 & G4 & G5); [intros ->; apply HR; now left|exact A1|apply HI; now left|].
    destruct (IH l' S1) as (N2 & rs & R1 & R2); [intros K; apply HR; now right|exact A2| |].
    { intros i Hi. apply (inv_next j); [|exact G2]. rewrite Forall_forall in S2. now apply S2. }
    exists (Nat.max N N2), ((o, calls) :: rs). split.
    + intros fuel Hf. cbn [requests]. rewrite G1 by lia. now rewrite R1 by lia.
    + constructor; [|exact R2]. split; [exact G3|]. split; [exact G4|exact G5].
Qed.

(* not found, nothing greater in the directory: the loop goes on for ever *)
Lemma never_answered j : j <> [] -> subs (removelast j) <> [] -> (forall x, In x (subs (removelast j)) -> idx_lt x j) ->
  forall fuel l pre, (forall e, In e l -> removelast e = removelast j -> idx_lt e j) -> get_rf subs fuel j l pre = None.
Proof using.
  intros Hj Hn Hx. assert (EA : add_rfs subs j = Some (subs (removelast j))).
  { destruct j; [congruence|]. unfold add_rfs. destruct (subs _); [congruence|reflexivity]. }
  induction fuel as [|f IH]; intros l pre Hl; [reflexivity|]. cbn [get_rf].
  assert (HD : forall e r c, (forall x, In x (e :: r) -> removelast x = removelast j -> idx_lt x j) ->
     get_round subs j (e :: r) c = inl (r, c) \/ get_round subs j (e :: r) c = inl (subs (removelast j) ++ e :: r, c ++ parent_call j)).
  { intros e r c He. cbn [get_round]. destruct (idx_eqb e j) eqn:E1.
    - apply idx_eqb_eq in E1. subst e. exfalso. apply (idx_lt_irrefl j). apply He; [now left|reflexivity].
    - destruct (idx_ltb j e) eqn:E2; [|now left].
      destruct (idx_eqb (removelast j) (removelast e)) eqn:E3.
      + apply idx_eqb_eq in E3. apply idx_ltb_lt in E2. exfalso. apply (idx_lt_irrefl j). eapply idx_lt_trans; [exact E2|]. apply He; [now left|now symmetry].
      + right. now rewrite EA. }
  assert (HP : forall e r c, (forall x, In x (e :: r) -> removelast x = removelast j -> idx_lt x j) ->
     match get_round subs j (e :: r) c with inl (l', c') => get_rf subs f j l' c' | inr res => Some res end = None).
  { intros e r c He. destruct (HD e r c He) as [-> | ->]; apply IH.
    - intros x K. apply He. now right.
    - intros x K P. apply in_app_or in K. destruct K as [K|K]; [now apply Hx|now apply He]. }
  destruct l as [|e r]; [|now apply HP].
  destruct (subs (removelast j)) as [|n ns] eqn:ES; [congruence|].
  assert (G : get_round subs j [] pre = get_round subs j (n :: ns) (pre ++ parent_call j)) by (cbn [get_round]; now rewrite EA).
  match goal with |- ?X = None => change (match get_round subs j [] pre with inl (l', c') => get_rf subs f j l' c' | inr res => Some res end = None) end.
  rewrite G. apply HP. intros x K _. apply Hx. exact K.
Qed.
End Cached.
