(** * C74: averages of statistics, sizes for humans *)
From Coq Require Import List ZArith NArith QArith Bool Ascii Lia Lqa.
From Verif Require Import Base M_Stats M_Average.
Import List ListNotations.

(** ** Sizes *)
Local Open Scope N_scope.
Lemma pow_pos k : 0 < 1024 ^ k.
Proof. apply N.neq_0_lt_0, N.pow_nonzero. discriminate. Qed.
Lemma pow_succ k : 1024 ^ (k + 1) = 1024 * 1024 ^ k.
Proof. now rewrite N.add_1_r, N.pow_succ_r'. Qed.
Lemma log_loop_ok fuel : forall n k, 1 <= k <= 8 -> 1024 ^ k <= n -> 8 - k < N.of_nat fuel ->
  let r := log_loop fuel n k in
  k <= r <= 8 /\ 1024 ^ r <= n /\ (r < 8 -> n < 1024 ^ (r + 1)).
Proof.
  induction fuel as [|fuel IH]; intros n k Hk Hn Hf; [cbn in Hf; lia|]. cbn [log_loop].
  destruct (N.leb_spec (1024 * 1024 ^ k) n) as [L|L]; cbn [andb].
  - destruct (N.ltb_spec k 8) as [L8|L8].
    + assert (A : 1 <= k + 1 <= 8) by lia. assert (B : 1024 ^ (k + 1) <= n) by (rewrite pow_succ; exact L).
      assert (C : 8 - (k + 1) < N.of_nat fuel) by lia.
      destruct (IH n (k + 1) A B C) as (H1 & H2 & H3). repeat split; auto; lia.
    + cbn zeta. repeat split; auto; lia.
  - cbn zeta. repeat split; auto; try lia. intros _. rewrite pow_succ. exact L.
Qed.
Lemma round_bounds a b : 0 < b -> 2 * (round_half_even a b * b) <= 2 * a + b /\ 2 * a <= 2 * (round_half_even a b * b) + b.
Proof.
  intros Hb. unfold round_half_even. pose proof (N.div_mod a b ltac:(lia)) as E. pose proof (N.mod_lt a b ltac:(lia)) as L.
  set (q := a / b) in *. set (r := a mod b) in *.
  destruct (N.ltb_spec (2 * r) b); [nia|]. destruct (N.ltb_spec b (2 * r)); [nia|]. destruct (N.even q); nia.
Qed.
(** a number on the grid is never crossed by rounding *)
Lemma round_ge a b c : 0 < b -> c * b <= a -> c <= round_half_even a b.
Proof.
  intros Hb H. unfold round_half_even. assert (c <= a / b) by (apply N.div_le_lower_bound; lia).
  destruct (N.ltb _ _); [assumption|]. destruct (N.ltb _ _); [lia|]. destruct (N.even _); lia.
Qed.
Lemma round_le a b c : 0 < b -> a <= c * b -> round_half_even a b <= c.
Proof.
  intros Hb H. pose proof (round_bounds a b Hb) as [R1 R2].
  destruct (N.le_gt_cases (round_half_even a b) c) as [|L]; [assumption|]. exfalso.
  (* then a = c*b and the remainder is 0 *)
  unfold round_half_even in L. pose proof (N.div_mod a b ltac:(lia)) as E. pose proof (N.mod_lt a b ltac:(lia)) as Lm.
  set (q := a / b) in *. set (r := a mod b) in *.
  destruct (N.ltb_spec (2 * r) b); [nia|]. assert (q < c) by nia.
  destruct (N.ltb_spec b (2 * r)); [lia|]. destruct (N.even q); lia.
Qed.
Lemma round_mono a a' b : 0 < b -> a <= a' -> round_half_even a b <= round_half_even a' b.
Proof.
  intros Hb H. pose proof (N.div_mod a b ltac:(lia)) as E. pose proof (N.mod_lt a b ltac:(lia)) as L.
  pose proof (N.div_mod a' b ltac:(lia)) as E'. pose proof (N.mod_lt a' b ltac:(lia)) as L'.
  pose proof (N.div_le_mono a a' b ltac:(lia) H) as D.
  unfold round_half_even. set (q := a / b) in *. set (r := a mod b) in *. set (q' := a' / b) in *. set (r' := a' mod b) in *.
  destruct (N.eq_dec q q') as [Eq|N].
  - rewrite <- Eq in *. assert (r <= r') by nia.
    destruct (N.ltb_spec (2 * r) b), (N.ltb_spec b (2 * r)), (N.ltb_spec (2 * r') b), (N.ltb_spec b (2 * r')), (N.even q); lia.
  - assert (q < q') by lia. destruct (N.ltb_spec (2 * r) b), (N.ltb_spec b (2 * r)), (N.ltb_spec (2 * r') b), (N.ltb_spec b (2 * r')), (N.even q), (N.even q'); lia.
Qed.

Lemma parts_big n : 1024 <= n -> exists m p k, human_parts n = (m, p, k) /\
  1 <= k <= 8 /\ 1024 ^ k <= n /\ (k < 8 -> n < 1024 ^ (k + 1)) /\ p = precision n k /\
  m = round_half_even (n * 10 ^ p) (1024 ^ k).
Proof.
  intros H. unfold human_parts. destruct (N.ltb_spec n 1024); [lia|].
  assert (A : 1024 ^ 1 <= n) by (rewrite N.pow_1_r; exact H). assert (B : 8 - 1 < N.of_nat 8) by reflexivity.
  destruct (log_loop_ok 8 n 1 ltac:(lia) A B) as (H1 & H2 & H3).
  eexists _, _, _. split; [reflexivity|]. repeat split; auto; lia.
Qed.
Lemma digits3 n k : 1024 ^ k <= n -> 100 * 1024 ^ k <= n * 10 ^ (precision n k).
Proof.
  unfold precision. intros H. destruct (N.leb_spec (100 * 1024 ^ k) n); [change (10 ^ 0) with 1; lia|].
  destruct (N.leb_spec (10 * 1024 ^ k) n); [change (10 ^ 1) with 10; lia|]. change (10 ^ 2) with 100. lia.
Qed.

(** A size is shown with its sign and a unit, exactly below 1024 bytes; else with at least
    three digits, rounded to the nearest (half a unit of the last place at most, i.e. 0.5 %);
    the number before the unit is never more than 1024 (unless the unit is the last one). *)
Theorem C74_human_size : forall z : Z, exists whole frac p k : N,
  to_human_size_str z =
    (if (z <? 0)%Z then bs "-" else []) ++ dec whole ++
    (if p =? 0 then [] else bs "." ++ dec_pad (N.to_nat p) frac) ++ bs " " ++ nth (N.to_nat k) units [] /\
  frac < 10 ^ p /\ k <= 8 /\
  let n := Z.abs_N z in let m := whole * 10 ^ p + frac in
  (n < 1024 -> k = 0 /\ p = 0 /\ whole = n) /\
  (1024 <= n -> 1 <= k /\ 1024 ^ k <= n /\ (k < 8 -> n < 1024 ^ (k + 1) /\ whole <= 1024) /\ 100 <= m /\
     2 * (m * 1024 ^ k) <= 2 * (n * 10 ^ p) + 1024 ^ k /\ 2 * (n * 10 ^ p) <= 2 * (m * 1024 ^ k) + 1024 ^ k /\
     100 * 1024 ^ k <= n * 10 ^ p).
Proof.
  intros z. unfold to_human_size_str. destruct (N.lt_ge_cases (Z.abs_N z) 1024) as [L|L].
  - assert (E : human_parts (Z.abs_N z) = (Z.abs_N z, 0, 0)).
    { unfold human_parts. destruct (N.ltb_spec (Z.abs_N z) 1024); [reflexivity|lia]. }
    rewrite E. exists (Z.abs_N z), 0, 0, 0. change (10 ^ 0) with 1. rewrite N.div_1_r. cbn zeta. repeat split; auto; lia.
  - destruct (parts_big _ L) as (m & p & k & E & Hk & H1 & H2 & Ep & Em). rewrite E.
    assert (Hp : 10 ^ p <> 0) by (apply N.pow_nonzero; discriminate).
    exists (m / 10 ^ p), (m mod 10 ^ p), p, k. split; [reflexivity|]. split; [now apply N.mod_lt|]. split; [lia|].
    cbn zeta. replace (m / 10 ^ p * 10 ^ p + m mod 10 ^ p) with m by (rewrite N.mul_comm; symmetry; rewrite N.mul_comm; rewrite (N.mul_comm _ (10 ^ p)); now rewrite <- N.div_mod).
    split; [lia|]. intros _. pose proof (digits3 _ _ H1) as D. rewrite <- Ep in D.
    destruct (round_bounds (Z.abs_N z * 10 ^ p) (1024 ^ k) (pow_pos k)) as [R1 R2]. rewrite <- Em in R1, R2.
    repeat split; auto; try lia.
    + apply N.div_le_upper_bound; [assumption|]. rewrite Em. apply round_le; [apply pow_pos|].
      specialize (H2 H). rewrite pow_succ in H2. nia.
    + rewrite Em. apply round_ge; [apply pow_pos|exact D].
Qed.
Print Assumptions C74_human_size.

(** What is shown for a size, in hundredths of a byte. *)
Definition as_shown (n : N) : N := let '(m, p, k) := human_parts n in m * 10 ^ (2 - p) * 1024 ^ k.

Lemma shown_big n m p r : 1024 <= n -> human_parts n = (m, p, r) -> 1 <= r <= 8 /\ 1024 ^ r <= n /\
  (r < 8 -> n < 1024 ^ (r + 1)) /\ p = precision n r /\ 10 ^ p * 10 ^ (2 - p) = 100 /\
  m = round_half_even (n * 10 ^ p) (1024 ^ r).
Proof.
  intros L E. destruct (parts_big n L) as (m' & p' & r' & E' & H1 & H2 & H3 & H4 & H5). rewrite E in E'.
  injection E' as <- <- <-. repeat split; auto; try lia.
  rewrite <- N.pow_add_r. replace (p + (2 - p)) with 2; [reflexivity|]. rewrite H4. unfold precision.
  destruct (_ <=? _); [lia|]. destruct (_ <=? _); lia.
Qed.
Lemma shown_upper n m p r c : 1024 <= n -> human_parts n = (m, p, r) -> n <= c * 1024 ^ r ->
  as_shown n <= 100 * (c * 1024 ^ r).
Proof.
  intros L E H. destruct (shown_big n m p r L E) as (_ & _ & _ & _ & Hp & Hm). unfold as_shown. rewrite E.
  assert (Hc : m <= c * 10 ^ p) by (rewrite Hm; apply round_le; [apply pow_pos|nia]).
  rewrite <- Hp. transitivity (c * 10 ^ p * 10 ^ (2 - p) * 1024 ^ r); [|apply N.eq_le_incl; ring].
  apply N.mul_le_mono_r, N.mul_le_mono_r, Hc.
Qed.
Lemma shown_lower n m p r c : 1024 <= n -> human_parts n = (m, p, r) -> c * 1024 ^ r <= n ->
  100 * (c * 1024 ^ r) <= as_shown n.
Proof.
  intros L E H. destruct (shown_big n m p r L E) as (_ & _ & _ & _ & Hp & Hm). unfold as_shown. rewrite E.
  assert (Hc : c * 10 ^ p <= m) by (rewrite Hm; apply round_ge; [apply pow_pos|nia]).
  rewrite <- Hp. transitivity (c * 10 ^ p * 10 ^ (2 - p) * 1024 ^ r); [apply N.eq_le_incl; ring|].
  apply N.mul_le_mono_r, N.mul_le_mono_r, Hc.
Qed.
Lemma pow_le a b : a <= b -> 1024 ^ a <= 1024 ^ b.
Proof. intros H. apply N.pow_le_mono_r; [discriminate|exact H]. Qed.

(** A bigger size is never shown as a smaller one: neither the unit nor the number of digits
    changes the order. *)
Theorem C74_human_monotone : forall n1 n2 : N, n1 <= n2 -> as_shown n1 <= as_shown n2.
Proof.
  intros n1 n2 H. destruct (N.lt_ge_cases n2 1024) as [L2|L2].
  - unfold as_shown, human_parts. destruct (N.ltb_spec n1 1024); [|lia]. destruct (N.ltb_spec n2 1024); [|lia]. nia.
  - destruct (human_parts n2) as [[m2 p2] r2] eqn:E2.
    destruct (shown_big _ _ _ _ L2 E2) as (K2 & B2 & U2 & P2 & _ & _).
    destruct (N.lt_ge_cases n1 1024) as [L1|L1].
    + pose proof (shown_lower n2 m2 p2 r2 1 L2 E2 ltac:(lia)) as D. pose proof (pow_le 1 r2 ltac:(lia)) as P. rewrite N.pow_1_r in P.
      assert (A : as_shown n1 = n1 * 100).
      { unfold as_shown, human_parts. destruct (N.ltb_spec n1 1024); [|lia]. change (10 ^ (2 - 0)) with 100. change (1024 ^ 0) with 1. lia. }
      rewrite A. lia.
    + destruct (human_parts n1) as [[m1 p1] r1] eqn:E1.
      destruct (shown_big _ _ _ _ L1 E1) as (K1 & B1 & U1 & P1 & _ & M1).
      destruct (shown_big _ _ _ _ L2 E2) as (_ & _ & _ & _ & Hp & M2).
      destruct (N.lt_trichotomy r1 r2) as [Lt|[Eq|Gt]].
      * assert (X : n1 < 1024 ^ (r1 + 1)) by (apply U1; lia).
        pose proof (shown_upper n1 m1 p1 r1 1024 L1 E1 ltac:(rewrite <- pow_succ; lia)) as D1. rewrite <- pow_succ in D1.
        pose proof (shown_lower n2 m2 p2 r2 1 L2 E2 ltac:(lia)) as D2. pose proof (pow_le (r1 + 1) r2 ltac:(lia)). lia.
      * subst r2. destruct (N.eq_dec p1 p2) as [Ep|Np].
        -- subst p2. unfold as_shown. rewrite E1, E2, <- Ep. apply N.mul_le_mono_r, N.mul_le_mono_r.
           rewrite M1, M2, <- Ep. apply round_mono; [apply pow_pos|]. apply N.mul_le_mono_r, H.
        -- rewrite P1, P2 in Np. unfold precision in Np.
           destruct (N.leb_spec (100 * 1024 ^ r1) n1), (N.leb_spec (100 * 1024 ^ r1) n2); try lia.
           ++ pose proof (shown_upper n1 m1 p1 r1 100 L1 E1 ltac:(lia)). pose proof (shown_lower n2 m2 p2 r1 100 L2 E2 ltac:(lia)). lia.
           ++ destruct (N.leb_spec (10 * 1024 ^ r1) n1), (N.leb_spec (10 * 1024 ^ r1) n2); try lia.
              pose proof (shown_upper n1 m1 p1 r1 10 L1 E1 ltac:(lia)). pose proof (shown_lower n2 m2 p2 r1 10 L2 E2 ltac:(lia)). lia.
      * exfalso. assert (n2 < 1024 ^ (r2 + 1)) by (apply U2; lia). pose proof (pow_le (r2 + 1) r1 ltac:(lia)). lia.
Qed.
Print Assumptions C74_human_monotone.
Local Close Scope N_scope.

(** ** Averages *)
Local Open Scope Q_scope.
Definition qsum (l : list Q) : Q := fold_right Qplus 0 l.
Definition known (a : bytes) (l : list attrs) : Prop := forall o, In o l -> o a <> None.
Definition val (o : attrs) (a : bytes) : Q := match o a with Some v => value v | None => 0 end.
Definition len (l : list attrs) : Q := inject_Z (Z.of_nat (length l)).

Lemma fold_none l : fold_left add_attr l None = None.
Proof. induction l as [|[v|] l IH]; [reflexivity|exact IH|exact IH]. Qed.
Lemma fold_sum a l : forall s, known a l -> exists q, fold_left add_attr (map (fun o => o a) l) (Some s) = Some q /\
  q == s + qsum (map (fun o => val o a) l).
Proof.
  induction l as [|o l IH]; intros s K; cbn [map fold_left qsum fold_right].
  - exists s. split; [reflexivity|]. ring.
  - assert (K' : known a l) by (intros x Hx; apply K; now right). pose proof (K o (or_introl eq_refl)) as Ko.
    unfold val at 1. destruct (o a) as [v|]; [|now contradiction Ko]. cbn [add_attr].
    destruct (IH (value v + s) K') as (q & E & Hq). exists q. split; [exact E|]. rewrite Hq. fold (qsum (map (fun o => val o a) l)). ring.
Qed.
Lemma fold_known a l : forall s q, fold_left add_attr (map (fun o => o a) l) s = Some q -> known a l.
Proof.
  induction l as [|o l IH]; intros s q E x Hx; [destruct Hx|]. cbn [map fold_left] in E.
  destruct Hx as [<-|Hx]; [|exact (IH _ _ E x Hx)].
  destruct (o a); [discriminate|]. cbn [add_attr] in E. now rewrite fold_none in E.
Qed.
Definition averaged : list bytes := [bs "ElapsedTime"; bs "Errors"; bs "TotalDestinationSizeChange"] ++ file_attrs.
Lemma avg_unfold l a : In a averaged ->
  calc_average l a = match fold_left add_attr (map (fun o => o a) l) (Some 0) with
                     | Some s => Some (s / len l) | None => None end.
Proof.
  intros H. unfold calc_average, len. unfold averaged, file_attrs, file_pairs in H. cbn [app map fst In] in H.
  repeat (destruct H as [<-|H]; [reflexivity|]). destruct H.
Qed.

(** Of any (non-empty) list of sessions' statistics, each average exists exactly if every
    session has the value, and is the sum divided by the number of sessions - whatever their
    order; there are none of the begin and the end. *)
Theorem C74_average : forall (l : list attrs) a, l <> [] -> In a averaged ->
  (calc_average l a <> None <-> known a l) /\
  (forall q, calc_average l a = Some q -> q * len l == qsum (map (fun o => val o a) l)).
Proof.
  intros l a Hl Ha. rewrite (avg_unfold l a Ha). assert (N : ~ len l == 0).
  { unfold len. destruct l as [|o l]; [now contradiction Hl|]. intros E. unfold Qeq in E. cbn in E. lia. }
  repeat split.
  - destruct (fold_left _ _ _) as [s|] eqn:E; [|intros H; now contradiction H]. intros _. exact (fold_known _ _ _ _ E).
  - intros K. destruct (fold_sum a l 0 K) as (q & E & _). rewrite E. discriminate.
  - intros q. destruct (fold_left _ _ _) as [s|] eqn:E; [|discriminate]. intros Eq. injection Eq as <-.
    destruct (fold_sum a l 0 (fold_known _ _ _ _ E)) as (q & E' & Hq). rewrite E in E'. injection E' as <-.
    rewrite Hq. field. exact N.
Qed.
Print Assumptions C74_average.
Theorem C74_no_times : forall l, calc_average l (bs "StartTime") = None /\ calc_average l (bs "EndTime") = None.
Proof. intros l. split; reflexivity. Qed.
Print Assumptions C74_no_times.

Lemma cents_of c : to_cents (of_cents c) = c.
Proof.
  unfold of_cents. destruct (Z.eqb_spec (Z.rem c 100) 0) as [E|]; [|reflexivity]. cbn [to_cents].
  pose proof (Z.quot_rem' c 100). lia.
Qed.
Lemma value_add x y : value (add_num x y) == value x + value y.
Proof. unfold value, add_num. rewrite cents_of. unfold Qeq, Qplus. cbn. lia. Qed.
Lemma value_sub x y : value (sub_num x y) == value x - value y.
Proof. unfold value, sub_num. rewrite cents_of. unfold Qeq, Qminus, Qopp, Qplus. cbn. lia. Qed.
Definition change (o : attrs) : Q :=
  val o (bs "NewFileSize") + val o (bs "ChangedSourceSize") + val o (bs "IncrementFileSize")
  - (val o (bs "DeletedFileSize") + val o (bs "ChangedMirrorSize")).
Lemma change_of o v : total_change o = Some v -> value v == change o.
Proof.
  unfold total_change, change, val. destruct (o (bs "NewFileSize")), (o (bs "ChangedSourceSize")), (o (bs "IncrementFileSize")),
    (o (bs "DeletedFileSize")), (o (bs "ChangedMirrorSize")); try discriminate.
  intros E. injection E as <-. now rewrite value_sub, !value_add.
Qed.
Lemma change_known o : total_change o <> None <->
  (o (bs "NewFileSize") <> None /\ o (bs "ChangedSourceSize") <> None /\ o (bs "IncrementFileSize") <> None /\
   o (bs "DeletedFileSize") <> None /\ o (bs "ChangedMirrorSize") <> None).
Proof.
  unfold total_change. destruct (o (bs "NewFileSize")), (o (bs "ChangedSourceSize")), (o (bs "IncrementFileSize")),
    (o (bs "DeletedFileSize")), (o (bs "ChangedMirrorSize")); split; try (intros _; repeat split; discriminate);
    try discriminate; try (intros H; now contradiction H); intros (A & B & C & D & E); tauto.
Qed.
Lemma in_avg a : In a file_attrs -> In a averaged.
Proof. intros H. unfold averaged. apply in_or_app. now right. Qed.
Lemma qsum_change l : qsum (map change l) ==
  qsum (map (fun o => val o (bs "NewFileSize")) l) + qsum (map (fun o => val o (bs "ChangedSourceSize")) l) +
  qsum (map (fun o => val o (bs "IncrementFileSize")) l) -
  (qsum (map (fun o => val o (bs "DeletedFileSize")) l) + qsum (map (fun o => val o (bs "ChangedMirrorSize")) l)).
Proof. induction l as [|o l IH]; cbn [map qsum fold_right]; [ring|]. fold (qsum (map change l)). rewrite IH. unfold change, qsum. ring. Qed.

(** The change of the destination's size shown for the averages exists exactly if every
    session has one, and is the average of the sessions' changes. *)
Theorem C74_total_change : forall (l : list attrs), l <> [] ->
  (average_change (calc_average l) <> None <-> forall o, In o l -> total_change o <> None) /\
  (forall q, average_change (calc_average l) = Some q ->
     q * len l == qsum (map (fun o => match total_change o with Some v => value v | None => 0 end) l)).
Proof.
  intros l Hl.
  destruct (C74_average l (bs "NewFileSize") Hl) as [K1 V1]; [apply in_avg; unfold file_attrs, file_pairs; cbn [map fst]; repeat (first [left; reflexivity | right])|].
  destruct (C74_average l (bs "ChangedSourceSize") Hl) as [K2 V2]; [apply in_avg; unfold file_attrs, file_pairs; cbn [map fst]; repeat (first [left; reflexivity | right])|].
  destruct (C74_average l (bs "IncrementFileSize") Hl) as [K3 V3]; [apply in_avg; unfold file_attrs, file_pairs; cbn [map fst]; repeat (first [left; reflexivity | right])|].
  destruct (C74_average l (bs "DeletedFileSize") Hl) as [K4 V4]; [apply in_avg; unfold file_attrs, file_pairs; cbn [map fst]; repeat (first [left; reflexivity | right])|].
  destruct (C74_average l (bs "ChangedMirrorSize") Hl) as [K5 V5]; [apply in_avg; unfold file_attrs, file_pairs; cbn [map fst]; repeat (first [left; reflexivity | right])|].
  assert (K : average_change (calc_average l) <> None <-> forall o, In o l -> total_change o <> None).
  { transitivity (known (bs "NewFileSize") l /\ known (bs "ChangedSourceSize") l /\ known (bs "IncrementFileSize") l /\
                  known (bs "DeletedFileSize") l /\ known (bs "ChangedMirrorSize") l).
    - rewrite <- K1, <- K2, <- K3, <- K4, <- K5. unfold average_change.
      destruct (calc_average l (bs "NewFileSize")), (calc_average l (bs "ChangedSourceSize")), (calc_average l (bs "IncrementFileSize")),
        (calc_average l (bs "DeletedFileSize")), (calc_average l (bs "ChangedMirrorSize")); split;
        try (intros _; repeat split; discriminate); try (intros H; now contradiction H);
        intros (A & B & C & D & E); tauto.
    - unfold known. split.
      + intros (A & B & C & D & E) o Ho. apply change_known. repeat split; auto.
      + intros H. repeat split; intros o Ho; apply change_known; auto. }
  split; [exact K|]. intros q Hq.
  assert (Kn : forall o, In o l -> total_change o <> None) by (apply K; congruence).
  assert (E : qsum (map (fun o => match total_change o with Some v => value v | None => 0 end) l) == qsum (map change l)).
  { clear -Kn. induction l as [|o l IH]; cbn [map qsum fold_right]; [reflexivity|].
    fold (qsum (map change l)). fold (qsum (map (fun o => match total_change o with Some v => value v | None => 0 end) l)).
    rewrite IH by (intros x Hx; apply Kn; now right). pose proof (Kn o (or_introl eq_refl)) as Ko.
    destruct (total_change o) as [v|] eqn:Ev; [|now contradiction Ko]. now rewrite (change_of _ _ Ev). }
  rewrite E, qsum_change. unfold average_change in Hq.
  destruct (calc_average l (bs "NewFileSize")) as [n|], (calc_average l (bs "ChangedSourceSize")) as [c|], (calc_average l (bs "IncrementFileSize")) as [i|],
    (calc_average l (bs "DeletedFileSize")) as [d|], (calc_average l (bs "ChangedMirrorSize")) as [m|]; try discriminate.
  injection Hq as <-. rewrite <- (V1 n eq_refl), <- (V2 c eq_refl), <- (V3 i eq_refl), <- (V4 d eq_refl), <- (V5 m eq_refl). ring.
Qed.
Print Assumptions C74_total_change.

(** Exceptions. The average of the errors is shown without its fraction (292-294: "%d"):
    sessions with errors can have none on average. *)
Theorem C74_errors_refuted : ~ (forall l v, l <> [] -> (forall o, In o l -> exists n, o (bs "Errors") = Some (Whole n) /\ (0 <= n)%Z) ->
  In (bs "Errors", v) (shown (calc_average l)) -> v == 0 -> forall o, In o l -> o (bs "Errors") = Some (Whole 0)).
Proof.
  intros H. set (o := fun n : Z => fun a => if beq_bytes a (bs "Errors") then Some (Whole n) else None).
  specialize (H [o 5%Z; o 0%Z; o 0%Z; o 0%Z; o 0%Z; o 0%Z] 0).
  assert (A : o 5%Z (bs "Errors") = Some (Whole 0)); [|discriminate A]. apply H.
  - discriminate.
  - intros x Hx. cbn in Hx. repeat (destruct Hx as [<-|Hx]; [eexists; split; [reflexivity|lia]|]). destruct Hx.
  - vm_compute. now left.
  - reflexivity.
  - now left.
Qed.
Print Assumptions C74_errors_refuted.

(** The cutoffs of the calculation of statistics: the ratio of ... the changed files and
    twice the new ones (185-193: NewFiles is added twice, DeletedFiles never), of the size
    of the source, and of the increments. *)
Theorem C74_cutoff : forall ratio o cut, get_cutoff ratio o = Some cut <->
  (o (bs "NewFiles") <> None /\ o (bs "ChangedFiles") <> None /\ o (bs "SourceFileSize") <> None /\ o (bs "IncrementFileSize") <> None /\
   cut = (ratio * (val o (bs "NewFiles") + val o (bs "ChangedFiles") + val o (bs "NewFiles")),
          ratio * val o (bs "SourceFileSize"), ratio * val o (bs "IncrementFileSize"))).
Proof.
  intros ratio o cut. unfold get_cutoff, val. destruct (o (bs "NewFiles")), (o (bs "ChangedFiles")), (o (bs "SourceFileSize")), (o (bs "IncrementFileSize"));
    split; try discriminate; try (intros (A & B & C & D & _); tauto).
  - intros E. injection E as <-. repeat split; discriminate.
  - intros (_ & _ & _ & _ & ->). reflexivity.
Qed.
Print Assumptions C74_cutoff.
(** so it isn't the ratio of the files that are new, changed or deleted *)
Theorem C74_cutoff_refuted : ~ (forall ratio o a b c, get_cutoff ratio o = Some (a, b, c) ->
  a == ratio * (val o (bs "NewFiles") + val o (bs "ChangedFiles") + val o (bs "DeletedFiles"))).
Proof.
  intros H. set (o := fun a => if beq_bytes a (bs "DeletedFiles") then Some (Whole 10) else Some (Whole 0)).
  specialize (H 1 o _ _ _ eq_refl). vm_compute in H. discriminate.
Qed.
Print Assumptions C74_cutoff_refuted.

(** ** Examples *)
Example average_ex :
  let o n := upd (bs "NewFileSize") (Some (Whole n)) (tracker (Whole 0)) in
  match calc_average [o 3%Z; o 4%Z] (bs "NewFileSize"), calc_average [o 3%Z; o 4%Z] (bs "ElapsedTime"),
        average_change (calc_average [o 3%Z; o 4%Z]) with
  | Some q, None, Some r => Qeq_bool q (7 # 2) && Qeq_bool r (7 # 2)
  | _, _, _ => false
  end = true.
Proof. vm_compute. reflexivity. Qed.
Example human_ex :
  to_human_size_str 0 = bs "0 B" /\ to_human_size_str 1023 = bs "1023 B" /\ to_human_size_str 1024 = bs "1.00 KiB" /\
  to_human_size_str (-1536) = bs "-1.50 KiB" /\ to_human_size_str 10239 = bs "10.00 KiB" /\ to_human_size_str 10240 = bs "10.0 KiB" /\
  to_human_size_str 102400 = bs "100 KiB" /\ to_human_size_str 1048575 = bs "1024 KiB" /\ to_human_size_str 1048576 = bs "1.00 MiB" /\
  to_human_size_str 1234567 = bs "1.18 MiB" /\ to_human_size_str (2 ^ 100) = bs "1048576 YiB".
Proof. repeat split; vm_compute; reflexivity. Qed.
