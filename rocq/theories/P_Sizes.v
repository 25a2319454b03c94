(** * C39: the sizes of increments *)
From Coq Require Import List ZArith Bool Ascii Lia Sorted Permutation.
From Verif Require Import Base L_Base M_IncName M_Sizes.
Import List ListNotations.
Local Open Scope Z_scope.

(** ** Specification *)
Fixpoint sum (l : list Z) : Z := match l with [] => 0 | x :: r => x + sum r end.
(** the sizes of the increments whose time is in [P] *)
Definition sizes_if (P : Z -> bool) (incs : list (bytes * Z)) : Z :=
  sum (map snd (filter (fun x => match inc_time (fst x) with Some t => P t | None => false end) incs)).
Definition size_at (t : Z) := sizes_if (Z.eqb t).
Definition size_since (t : Z) := sizes_if (Z.leb t).

(** ** Lemmas *)
Lemma total_sum l : get_total l = sum l.
Proof.
  unfold get_total. assert (H : forall a, fold_left Z.add l a = a + sum l).
  { induction l as [|x l IH]; intros a; cbn; [lia|]. rewrite IH. lia. } rewrite H. lia.
Qed.
Section Sort.
Context {A : Type} (key : A -> Z).
Lemma insert_perm x l : Permutation (insert_by key x l) (x :: l).
Proof. induction l as [|y l IH]; cbn; [reflexivity|]. destruct (_ <=? _); [reflexivity|]. rewrite IH. apply perm_swap. Qed.
Lemma sort_perm l : Permutation (sort_by key l) l.
Proof. induction l as [|x l IH]; cbn; [reflexivity|]. rewrite insert_perm. now constructor. Qed.
Lemma insert_sorted x l : StronglySorted (fun a b => key a <= key b) l -> StronglySorted (fun a b => key a <= key b) (insert_by key x l).
Proof.
  induction l as [|y l IH]; intros H; cbn; [constructor; [constructor|constructor]|].
  inversion H as [|? ? H1 H2]; subst. destruct (Z.leb_spec (key x) (key y)).
  - constructor; [exact H|]. constructor; [lia|]. eapply Forall_impl; [|exact H2]. cbn. intros a Ha. lia.
  - constructor; [now apply IH|]. rewrite Forall_forall in *. intros a Ha. apply (Permutation_in _ (insert_perm x l)) in Ha.
    destruct Ha as [<-|Ha]; [lia|now apply H2].
Qed.
Lemma sort_sorted l : StronglySorted (fun a b => key a <= key b) (sort_by key l).
Proof. induction l as [|x l IH]; cbn; [constructor|now apply insert_sorted]. Qed.
End Sort.

Definition dget (d : list (Z * Z)) (t : Z) : Z := match find (fun x => Z.eqb (fst x) t) d with Some x => snd x | None => 0 end.
Lemma add_size_get t s d t' : dget (add_size t s d) t' = dget d t' + (if Z.eqb t t' then s else 0).
Proof.
  unfold dget. induction d as [|[u v] d IH]; cbn [add_size find fst snd].
  - destruct (Z.eqb_spec t t'); cbn; lia.
  - destruct (Z.eqb_spec t u) as [->|N]; cbn [find fst snd].
    + destruct (Z.eqb_spec u t'); cbn [snd]; [reflexivity|]. lia.
    + destruct (Z.eqb_spec u t') as [->|N2]; cbn [snd].
      * destruct (Z.eqb_spec t t'); [congruence|lia].
      * exact IH.
Qed.
Lemma add_size_keys t s d : NoDup (map fst d) -> NoDup (map fst (add_size t s d)) /\ forall x, In x (map fst (add_size t s d)) <-> x = t \/ In x (map fst d).
Proof.
  induction d as [|[u v] d IH]; cbn [add_size map fst]; intros H.
  - split; [constructor; [intros []|constructor]|]. intros x. cbn. intuition.
  - inversion H as [|? ? H1 H2]; subst. destruct (Z.eqb_spec t u) as [->|N]; cbn [map fst].
    + split; [exact H|]. intros x. cbn. intuition.
    + destruct (IH H2) as [I1 I2]. split.
      * constructor; [|exact I1]. intros X. apply I2 in X as [X|X]; [congruence|contradiction].
      * intros x. cbn. rewrite I2. intuition.
Qed.
Lemma time_dict_ok incs :
  NoDup (map fst (get_time_dict incs)) /\
  (forall t, In t (map fst (get_time_dict incs)) <-> exists n s, In (n, s) incs /\ inc_time n = Some t) /\
  (forall t, dget (get_time_dict incs) t = size_at t incs).
Proof.
  unfold get_time_dict.
  assert (G : forall d, NoDup (map fst d) ->
    let r := fold_left (fun d '(n, s) => match inc_time n with Some t => add_size t s d | None => d end) incs d in
    NoDup (map fst r) /\ (forall t, In t (map fst r) <-> In t (map fst d) \/ exists n s, In (n, s) incs /\ inc_time n = Some t) /\
    (forall t, dget r t = dget d t + size_at t incs)).
  { induction incs as [|[n s] incs IH]; intros d N; cbn [fold_left].
    - cbv zeta. split; [exact N|]. split; [intros t; split; [now left|intros [H|(n & s & [] & _)]; exact H]|].
      intros t. unfold size_at, sizes_if. cbn. lia.
    - destruct (inc_time n) as [u|] eqn:E.
      + destruct (add_size_keys u s d N) as [A1 A2]. destruct (IH _ A1) as (I1 & I2 & I3). cbv zeta. split; [exact I1|]. split.
        * intros t. rewrite I2, A2. split.
          -- intros [[->|H]|(n' & s' & H & H')]; [right; exists n, s; split; [now left|exact E]|now left|right; exists n', s'; split; [now right|exact H']].
          -- intros [H|(n' & s' & [H|H] & H')]; [auto| |right; eauto]. injection H as <- <-. left. left. congruence.
        * intros t. rewrite I3, add_size_get. unfold size_at, sizes_if. cbn [filter fst]. rewrite E, (Z.eqb_sym t u). destruct (Z.eqb u t); cbn [map snd sum]; lia.
      + destruct (IH d N) as (I1 & I2 & I3). cbv zeta. split; [exact I1|]. split.
        * intros t. rewrite I2. split; (intros [H|(n' & s' & H & H')]; [now left|right; exists n', s'; split; [|exact H']]); [now right|].
          destruct H as [H|H]; [congruence|exact H].
        * intros t. rewrite I3. unfold size_at, sizes_if. cbn [filter fst]. now rewrite E. }
  destruct (G [] (NoDup_nil _)) as (G1 & G2 & G3). split; [exact G1|]. split; [|intros t; now rewrite G3].
  intros t. rewrite G2. cbn. tauto.
Qed.
Lemma sum_perm l l' : Permutation l l' -> sum l = sum l'.
Proof. induction 1; cbn in *; lia. Qed.
(** the increments from a time on, by their times *)
Lemma since_by_times P incs times : NoDup times -> (forall t, In t times <-> P t = true /\ exists n s, In (n, s) incs /\ inc_time n = Some t) ->
  sizes_if P incs = sum (map (fun t => size_at t incs) times).
Proof.
  intros N. assert (G : (forall t, P t = true -> (exists n s, In (n, s) incs /\ inc_time n = Some t) -> In t times) -> (forall t, In t times -> P t = true) ->
    sizes_if P incs = sum (map (fun t => size_at t incs) times)).
  { induction incs as [|[n s] incs IH]; intros H1 H2.
    - unfold sizes_if at 1. cbn. clear. induction times as [|t times IH]; [reflexivity|]. cbn. unfold size_at, sizes_if in *. cbn in *. lia.
    - assert (E : sizes_if P incs = sum (map (fun t => size_at t incs) times)).
      { apply IH; [intros t Pt (n' & s' & X & Y); apply H1; [exact Pt|exists n', s'; split; [now right|exact Y]]|exact H2]. }
      assert (F : forall l, sum (map (fun t => size_at t ((n, s) :: incs)) l) =
        sum (map (fun t => size_at t incs) l) + s * Z.of_nat (count_occ Z.eq_dec l (match inc_time n with Some u => u | None => 0 end)) * (match inc_time n with Some _ => 1 | None => 0 end)).
      { intros l. induction l as [|t l IHl]; cbn [map sum count_occ]; [lia|]. rewrite IHl.
        unfold size_at, sizes_if. cbn [filter fst]. destruct (inc_time n) as [u|] eqn:Eu; [|lia].
        destruct (Z.eq_dec t u) as [->|Nu].
        - rewrite Z.eqb_refl. cbn [map snd sum]. nia.
        - destruct (Z.eqb_spec t u); [congruence|]. nia. }
      rewrite F. unfold sizes_if. cbn [filter fst]. fold (sizes_if P incs). destruct (inc_time n) as [u|] eqn:Eu.
      + destruct (P u) eqn:Pu.
        * assert (I : In u times) by (apply H1; [exact Pu|exists n, s; split; [now left|exact Eu]]).
          rewrite (proj1 (NoDup_count_occ' Z.eq_dec times) N u I). cbn [map snd sum].
          change (sum (map snd (filter (fun x => match inc_time (fst x) with Some t => P t | None => false end) incs))) with (sizes_if P incs). lia.
        * assert (I : ~ In u times) by (intros X; apply H2 in X; congruence).
          rewrite (proj1 (count_occ_not_In Z.eq_dec times u) I). change (sum (map snd (filter (fun x => match inc_time (fst x) with Some t => P t | None => false end) incs))) with (sizes_if P incs). lia.
      + change (sum (map snd (filter (fun x => match inc_time (fst x) with Some t => P t | None => false end) incs))) with (sizes_if P incs). lia. }
  intros H. apply G; intros t; [intros A B; apply H; now split|intros A; now apply H in A].
Qed.
Lemma cumulate_ok d times : forall total, map (fun x => (tr_time x, tr_size x)) (cumulate total times d) = map (fun t => (t, dget d t)) times /\
  forall a t b, times = a ++ t :: b -> nth_error (cumulate total times d) (length a) = Some (mk_triple t (dget d t) (total + sum (map (dget d) (a ++ [t])))).
Proof.
  induction times as [|u times IH]; intros total; cbn [cumulate map].
  - split; [reflexivity|]. intros [|x a] t b H; discriminate.
  - fold (dget d u). destruct (IH (total + dget d u)) as [I1 I2]. split; [cbn [tr_time tr_size]; now rewrite I1|].
    intros [|x a] t b H; cbn [app] in H; injection H as -> H; cbn [length nth_error app map].
    + cbn [sum]. do 2 f_equal. lia.
    + rewrite (I2 a t b H). do 2 f_equal. cbn [sum]. lia.
Qed.
Lemma desc_sorted l : NoDup l -> StronglySorted (fun a b => b < a) (rev (sort_by (fun t : Z => t) l)).
Proof.
  intros N. assert (S1 := sort_sorted (fun t : Z => t) l). assert (N1 : NoDup (sort_by (fun t : Z => t) l)) by (eapply Permutation_NoDup; [apply Permutation_sym, sort_perm|exact N]).
  revert S1 N1. generalize (sort_by (fun t : Z => t) l) as m. clear. induction m as [|x m IH]; intros S1 N1; cbn [rev]; [constructor|].
  inversion S1 as [|? ? A B]; subst. inversion N1 as [|? ? C D]; subst. specialize (IH A D).
  assert (G : forall y, In y (rev m) -> x < y).
  { intros y Hy. apply in_rev in Hy. rewrite Forall_forall in B. specialize (B y Hy). assert (x <> y) by (intros ->; contradiction). lia. }
  revert IH G. generalize (rev m) as k. clear. induction k as [|y k IHk]; intros S1 G; cbn [app]; [repeat constructor|].
  inversion S1 as [|? ? A B]; subst. constructor; [apply IHk; [exact A|intros z Hz; apply G; now right]|].
  rewrite Forall_forall in *. intros z Hz. apply in_app_or in Hz as [Hz|[<-|[]]]; [now apply B|]. apply G. now left.
Qed.
Lemma desc_prefix (a : list Z) t b : StronglySorted (fun a b => b < a) (a ++ t :: b) ->
  forall x, In x (a ++ t :: b) -> (t <= x <-> In x (a ++ [t])).
Proof.
  induction a as [|y a IH]; cbn [app]; intros H x Hx.
  - inversion H as [|? ? A B]; subst. rewrite Forall_forall in B. destruct Hx as [<-|Hx]; [cbn; intuition lia|].
    specialize (B x Hx). cbn. split; [lia|]. intros [<-|[]]. lia.
  - inversion H as [|? ? A B]; subst. rewrite Forall_forall in B. destruct Hx as [<-|Hx].
    + specialize (B t ltac:(apply in_or_app; right; now left)). split; [now left|lia].
    + rewrite (IH A x Hx). cbn. split; [now right|]. intros [<-|X]; [|exact X]. specialize (B y Hx). lia.
Qed.

(** ** C39 *)
(** [mirror]: the sizes of the files in the mirror; [incs]: the names and sizes of the files among the increments.
    One entry for the mirror, and one for every time at which there are increments, with the sum of their sizes
    and the sum of all that is needed to go back to that time; in order of time. *)
Theorem C39_sizes : forall mirror_time mirror incs,
  let l := get_increments_sizes mirror_time mirror incs in
  StronglySorted (fun x y => tr_time x <= tr_time y) l /\
  exists times, NoDup times /\ (forall t, In t times <-> exists n s, In (n, s) incs /\ inc_time n = Some t) /\
  Permutation l (mk_triple mirror_time (sum mirror) (sum mirror) ::
                 map (fun t => mk_triple t (size_at t incs) (sum mirror + size_since t incs)) times).
Proof.
  intros mt mirror incs l. split; [apply sort_sorted|].
  destruct (time_dict_ok incs) as (D1 & D2 & D3). set (d := get_time_dict incs) in *.
  set (times := rev (sort_by (fun t => t) (map fst d))).
  assert (PT : Permutation times (map fst d)) by (unfold times; rewrite <- Permutation_rev; apply sort_perm).
  assert (NT : NoDup times) by (eapply Permutation_NoDup; [apply Permutation_sym, PT|exact D1]).
  assert (IT : forall t, In t times <-> exists n s, In (n, s) incs /\ inc_time n = Some t).
  { intros t. rewrite <- D2. split; apply Permutation_in; [exact PT|now apply Permutation_sym]. }
  exists times. split; [exact NT|]. split; [exact IT|].
  unfold l, get_increments_sizes. rewrite sort_perm. unfold summary_triples. rewrite total_sum. fold d. fold times. constructor.
  assert (E : cumulate (sum mirror) times d = map (fun t => mk_triple t (size_at t incs) (sum mirror + size_since t incs)) times).
  { destruct (cumulate_ok d times (sum mirror)) as [C1 C2].
    assert (L : length (cumulate (sum mirror) times d) = length times) by (apply (f_equal (@length _)) in C1; now rewrite !map_length in C1).
    assert (X : forall k, nth_error (cumulate (sum mirror) times d) k = nth_error (map (fun t => mk_triple t (size_at t incs) (sum mirror + size_since t incs)) times) k).
    { intros k. rewrite nth_error_map. destruct (nth_error times k) as [t|] eqn:Ek.
      - apply nth_error_split in Ek as (a & b & Et & <-). cbn [option_map]. rewrite (C2 a t b Et). rewrite D3. do 2 f_equal. f_equal.
        unfold size_since. rewrite (since_by_times (Z.leb t) incs (a ++ [t])).
        + f_equal. apply map_ext. exact D3.
        + rewrite Et in NT. change (a ++ t :: b) with (a ++ [t] ++ b) in NT. rewrite app_assoc in NT. clear -NT.
          induction (a ++ [t]) as [|x m IH]; [constructor|]. inversion NT as [|? ? A B]; subst. constructor; [|now apply IH].
          intros Y. apply A, in_or_app. now left.
        + intros x. pose proof (desc_sorted (map fst d) D1) as DS. fold times in DS. rewrite Et in DS. split.
          * intros Hx. assert (Hx' : In x times) by (rewrite Et; change (t :: b) with ([t] ++ b); rewrite app_assoc; apply in_or_app; now left).
            split; [|now apply IT]. apply Z.leb_le. rewrite Et in Hx'. now apply (desc_prefix a t b DS x Hx').
          * intros [Hl Hx]. apply IT in Hx. rewrite Et in Hx. apply Z.leb_le in Hl. now apply (desc_prefix a t b DS x Hx).
      - cbn [option_map]. apply nth_error_None. apply nth_error_None in Ek. lia. }
    clear -X. revert X. generalize (map (fun t => mk_triple t (size_at t incs) (sum mirror + size_since t incs)) times) as m.
    generalize (cumulate (sum mirror) times d) as k. clear. induction k as [|x k IH]; intros [|y m] X; [reflexivity|discriminate (X O)|discriminate (X O)|].
    pose proof (X O) as E. injection E as ->. f_equal. apply IH. intros n. exact (X (S n)). }
  rewrite E. reflexivity.
Qed.

(** The older, the more: no entry of an earlier time has a smaller total than one of a later time; and the mirror
    comes last, when it is newer than its increments. *)
Lemma size_since_mono incs t1 t2 : (forall n s, In (n, s) incs -> 0 <= s) -> t1 <= t2 -> 0 <= size_since t2 incs <= size_since t1 incs.
Proof.
  intros P L. unfold size_since, sizes_if. induction incs as [|[n s] incs IH]; [cbn; lia|].
  assert (P' : forall n s, In (n, s) incs -> 0 <= s) by (intros n' s' X; apply (P n' s'); now right).
  specialize (IH P'). specialize (P n s (or_introl eq_refl)). cbn [filter fst]. destruct (inc_time n) as [u|]; [|exact IH].
  destruct (Z.leb_spec t1 u), (Z.leb_spec t2 u); cbn [map snd sum]; lia.
Qed.
Theorem C39_totals_grow : forall mirror_time mirror incs,
  (forall n s, In (n, s) incs -> 0 <= s) -> (forall n s t, In (n, s) incs -> inc_time n = Some t -> t < mirror_time) ->
  let l := get_increments_sizes mirror_time mirror incs in
  (forall x y, In x l -> In y l -> tr_time x <= tr_time y -> tr_total y <= tr_total x) /\
  exists l0, l = l0 ++ [mk_triple mirror_time (sum mirror) (sum mirror)].
Proof.
  intros mt mirror incs P B l. destruct (C39_sizes mt mirror incs) as (S1 & times & N & T & PM). fold l in S1, PM.
  assert (M : forall x, In x l <-> x = mk_triple mt (sum mirror) (sum mirror) \/ exists t, In t times /\ x = mk_triple t (size_at t incs) (sum mirror + size_since t incs)).
  { intros x. split.
    - intros X. apply (Permutation_in _ PM) in X as [X|X]; [now left|]. apply in_map_iff in X as (t & <- & X). right. eauto.
    - intros X. apply (Permutation_in _ (Permutation_sym PM)). destruct X as [->|(t & X & ->)]; [now left|right]. now apply (in_map (fun t => mk_triple t (size_at t incs) (sum mirror + size_since t incs))). }
  assert (LT : forall t, In t times -> t < mt) by (intros t X; apply T in X as (n & s & X & Y); eapply B; eassumption).
  split.
  - intros x y Hx Hy L. apply M in Hx as [->|(t & Ht & ->)]; apply M in Hy as [->|(u & Hu & ->)]; cbn [tr_time tr_total] in *; try reflexivity.
    + specialize (LT u Hu). lia.
    + pose proof (size_since_mono incs t t P ltac:(lia)). lia.
    + pose proof (size_since_mono incs t u P L). lia.
  - assert (Nl : l <> []) by (intros E; rewrite E in PM; apply Permutation_nil in PM; discriminate).
    destruct (exists_last Nl) as (l0 & z & E). exists l0. rewrite E. do 2 f_equal.
    assert (Hz : In z l) by (rewrite E; apply in_or_app; right; now left). apply M in Hz as [->|(t & Ht & ->)]; [reflexivity|]. exfalso.
    assert (Hm : In (mk_triple mt (sum mirror) (sum mirror)) l) by (apply M; now left). rewrite E in Hm, S1.
    apply in_app_or in Hm as [Hm|[Hm|[]]].
    + clear -S1 Hm LT Ht. induction l0 as [|y l0 IH]; [destruct Hm|]. cbn [app] in S1. inversion S1 as [|? ? A C]; subst. destruct Hm as [->|Hm]; [|now apply IH].
      rewrite Forall_forall in C. specialize (C _ ltac:(apply in_or_app; right; now left)). cbn [tr_time] in C. specialize (LT t Ht). lia.
    + injection Hm as E1 _ _. specialize (LT t Ht). lia.
Qed.

(** ** Example: two times, one of them with a file whose name holds no time *)
Example sizes_ex :
  get_increments_sizes 2000000000 [10; 20] [(bs "f.1999-01-01T00:00:00Z.diff.gz", 3); (bs "x", 4096); (bs "g.2001-01-01T00:00:00Z.missing", 5); (bs "g.1999-01-01T00:00:00Z.snapshot", 7)]
  = [mk_triple 915148800 10 45; mk_triple 978307200 5 35; mk_triple 2000000000 30 30].
Proof. vm_compute. reflexivity. Qed.

Print Assumptions C39_sizes.
Print Assumptions C39_totals_grow.
