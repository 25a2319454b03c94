From Coq Require Import List ZArith Bool Ascii Lia Sorted.
From Verif Require Import Base L_Base M_Iter L_Iter M_CachedRF S_CachedRF L_CachedRF.
Import List ListNotations.
Local Open Scope Z_scope.

(** ** bits *)
Lemma mod_pow2_testbit p n k : 0 <= k < n -> Z.testbit (p mod 2 ^ n) k = Z.testbit p k.
Proof. intros H. rewrite Z.mod_pow2_bits_low by lia. reflexivity. Qed.
Lemma high_bit x n : 0 <= n -> 0 <= x < 2 ^ (n + 1) -> (2 ^ n <=? x) = Z.testbit x n.
Proof.
  intros Hn Hx. rewrite Z.pow_add_r in Hx by lia. change (2 ^ 1) with 2 in Hx.
  destruct (Z.leb_spec (2 ^ n) x).
  - symmetry. apply Z.testbit_true; [lia|].
    assert (E : x / 2 ^ n = 1) by (symmetry; apply (Z.div_unique x (2 ^ n) 1 (x - 2 ^ n)); lia). now rewrite E.
  - symmetry. destruct (Z.testbit x n) eqn:E; [|reflexivity]. apply Z.testbit_true in E; [|lia].
    rewrite Z.div_small in E by lia. discriminate.
Qed.
Lemma readable_bit p : readable p = Z.testbit p 8.
Proof.
  unfold readable. change 256 with (2 ^ 8). change 512 with (2 ^ (8 + 1)). rewrite high_bit; [|lia|apply Z.mod_pos_bound; reflexivity].
  apply mod_pow2_testbit. lia.
Qed.
Lemma executable_bit p : executable p = Z.testbit p 6.
Proof.
  unfold executable. change 64 with (2 ^ 6). change 128 with (2 ^ (6 + 1)). rewrite high_bit; [|lia|apply Z.mod_pos_bound; reflexivity].
  apply mod_pow2_testbit. lia.
Qed.
Lemma readable_256 p : readable (Z.lor 256 p) = true.
Proof. rewrite readable_bit, Z.lor_spec. reflexivity. Qed.
Lemma usable_448 p : executable (Z.lor 448 p) = true /\ readable (Z.lor 448 p) = true.
Proof. rewrite readable_bit, executable_bit, !Z.lor_spec. split; reflexivity. Qed.
Definition widened (k : pkind) (p : Z) : Z := match k with PReg => Z.lor 256 p | _ => Z.lor 448 p end.
Lemma usable_widened k p : usable (Some (k, widened k p)).
Proof. destruct k; cbn [usable widened]; [apply readable_256|apply usable_448|exact I]. Qed.

(** ** prefixes *)
Lemma removelast_length (o : idx) : o <> [] -> length o = S (length (removelast o)).
Proof.
  induction o as [|a o IH]; [congruence|]. intros _. destruct o as [|b o]; [reflexivity|].
  change (removelast (a :: b :: o)) with (a :: removelast (b :: o)). cbn [length]. f_equal. now apply IH.
Qed.
Lemma firstn_prefix {n} (i : idx) : prefix (firstn n i) i.
Proof. exists (skipn n i). symmetry. apply firstn_skipn. Qed.
Lemma prefix_firstn q i : prefix q i -> q = firstn (length q) i.
Proof. intros [r ->]. rewrite firstn_app, firstn_all, Nat.sub_diag. cbn. now rewrite app_nil_r. Qed.
Lemma prefix_length q i : prefix q i -> (length q <= length i)%nat.
Proof. intros [r ->]. rewrite app_length. lia. Qed.
Lemma prefix_same_length q i : prefix q i -> length q = length i -> q = i.
Proof. intros [r ->]. rewrite app_length. intros H. destruct r; [now rewrite app_nil_r|cbn in H; lia]. Qed.
Lemma prefix_two a b i : prefix a i -> prefix b i -> (length a <= length b)%nat -> prefix a b.
Proof.
  intros Ha Hb H. rewrite (prefix_firstn a i Ha). rewrite (prefix_firstn b i Hb).
  exists (skipn (length a) (firstn (length b) i)).
  rewrite <- (firstn_skipn (length a) (firstn (length b) i)) at 1. f_equal. rewrite firstn_firstn. f_equal. lia.
Qed.
Lemma in_above i d : In d (above i) <-> prefix d i /\ d <> i.
Proof.
  unfold above. rewrite in_map_iff. split.
  - intros (n & <- & H). apply in_seq in H. split; [apply firstn_prefix|]. intros K.
    apply (f_equal (@length bytes)) in K. rewrite firstn_length in K. lia.
  - intros [H N]. exists (length d). split; [symmetry; now apply prefix_firstn|]. apply in_seq.
    pose proof (prefix_length _ _ H). destruct (Nat.eq_dec (length d) (length i)) as [E|]; [|lia].
    exfalso. now apply N, prefix_same_length.
Qed.

(** ** file systems which differ in permissions only *)
Definition same_kinds (orig fs : mirror_fs) : Prop := forall i, option_map fst (fs i) = option_map fst (orig i).
Lemma reach orig fs i : a_tree orig -> same_kinds orig fs -> (forall q, prefix q i -> q <> i -> usable (fs q)) ->
  orig i <> None -> reachable fs i = true.
Proof.
  intros (T1 & T2 & _) SK U Hi. unfold reachable. apply forallb_forall. intros d Hd. apply in_above in Hd. destruct Hd as [Pd Nd].
  assert (K : exists p, orig d = Some (PDir, p)).
  { destruct Pd as [r Er]. clear U. revert i Hi Er Nd. induction r as [|b r IH] using rev_ind; intros i Hi Er Nd.
    - rewrite app_nil_r in Er. now subst.
    - subst i. rewrite app_assoc in Hi. destruct (T1 _ _ Hi) as [p Hp]. destruct r as [|c r].
      + rewrite app_nil_r in Hp. now exists p.
      + apply (IH (d ++ c :: r)); [now rewrite Hp|reflexivity|]. intros K.
        apply (f_equal (@length bytes)) in K. rewrite app_length in K. cbn in K. lia. }
  destruct K as [p Kp]. pose proof (SK d) as E. rewrite Kp in E. cbn in E.
  pose proof (U d Pd Nd) as Ud. destruct (fs d) as [[k p']|]; [|discriminate]. injection E as ->. apply Ud.
Qed.
Lemma same_look fs i : reachable fs i = true -> look fs i = fs i.
Proof. intros H. unfold look. now rewrite H. Qed.

Section PC.
Variable orig : mirror_fs.
Hypothesis HT : a_tree orig.

(* the open list and the files: L is the path worked on *)
Record pinv (L : idx) (op : list (idx * Z)) (fs : mirror_fs) : Prop := {
  pi_chain : StronglySorted (fun x y => (length (fst y) < length (fst x))%nat) op;
  pi_open : forall o p, In (o, p) op -> o <> [] /\ prefix o L /\
              exists k, k <> POther /\ orig o = Some (k, p) /\ fs o = Some (k, widened k p);
  pi_rest : forall j, ~ In j (map fst op) -> fs j = orig j;
  pi_usable : forall q, prefix q L -> usable (fs q) }.
Lemma pinv_kinds L op fs : pinv L op fs -> same_kinds orig fs.
Proof using.
  intros H i. destruct (in_dec (list_eq_dec (list_eq_dec ascii_dec)) i (map fst op)) as [K|K].
  - apply in_map_iff in K. destruct K as ([o p] & <- & K). destruct (pi_open _ _ _ H o p K) as (_ & _ & k & _ & E1 & E2).
    cbn [fst]. now rewrite E1, E2.
  - now rewrite (pi_rest _ _ _ H i K).
Qed.
Lemma chain_distinct o p op : StronglySorted (fun x y : idx * Z => (length (fst y) < length (fst x))%nat) ((o, p) :: op) -> ~ In o (map fst op).
Proof.
  intros H K. inversion H as [|? ? S1 S2]; subst. apply in_map_iff in K. destruct K as ([o' p'] & <- & K).
  rewrite Forall_forall in S2. specialize (S2 _ K). cbn in S2. lia.
Qed.
(* putting back the first one *)
Lemma put_back L o p op fs : pinv L ((o, p) :: op) fs ->
  exists fs', chmod fs o p = Some fs' /\ fs' o = orig o /\ (forall j, j <> o -> fs' j = fs j)
    /\ pinv (removelast o) op fs'.
Proof using HT.
  intros H. destruct (pi_open _ _ _ H o p (or_introl eq_refl)) as (Ho & Po & k & Hk & E1 & E2).
  assert (R : reachable fs o = true).
  { apply (reach orig fs o HT); [eapply pinv_kinds; eassumption| |congruence].
    intros q Pq _. apply (pi_usable _ _ _ H). eapply prefix_trans; eassumption. }
  unfold chmod. rewrite same_look by exact R. rewrite E2.
  eexists. split; [reflexivity|].
  assert (G1 : (fun j => if idx_eqb o j then Some (k, p) else fs j) o = orig o) by (rewrite idx_eqb_refl; now symmetry).
  assert (G2 : forall j, j <> o -> (fun j => if idx_eqb o j then Some (k, p) else fs j) j = fs j).
  { intros j Hj. destruct (idx_eqb o j) eqn:E; [|reflexivity]. apply idx_eqb_eq in E. congruence. }
  split; [exact G1|]. split; [exact G2|].
  pose proof (chain_distinct o p op (pi_chain _ _ _ H)) as ND.
  assert (Pr : prefix (removelast o) o) by (exists [last o []]; now apply app_removelast_last).
  assert (Lr : (length (removelast o) < length o)%nat).
  { rewrite (removelast_length o Ho). lia. }
  split.
  - pose proof (pi_chain _ _ _ H) as C. now inversion C.
  - intros o' p' K. destruct (pi_open _ _ _ H o' p' (or_intror K)) as (A & B & k' & D1 & D2 & D3).
    split; [exact A|]. split.
    + apply (prefix_two o' (removelast o) L B); [eapply prefix_trans; eassumption|].
      pose proof (pi_chain _ _ _ H) as C. inversion C as [|? ? S1 S2]; subst. rewrite Forall_forall in S2.
      specialize (S2 _ K). cbn [fst] in S2. rewrite (removelast_length o Ho) in S2. lia.
    + exists k'. split; [exact D1|]. split; [exact D2|]. rewrite G2; [exact D3|]. intros ->. apply ND. apply in_map_iff. now exists (o, p').
  - intros j Hj. destruct (idx_eqb o j) eqn:E.
    + apply idx_eqb_eq in E. subst j. rewrite <- E1. reflexivity.
    + apply (pi_rest _ _ _ H). cbn [map fst]. intros [K|K]; [|now apply Hj]. apply idx_eqb_neq in E. now apply E.
  - intros q Pq. rewrite G2.
    + apply (pi_usable _ _ _ H). eapply prefix_trans; [exact Pq|]. eapply prefix_trans; eassumption.
    + intros ->. apply prefix_length in Pq. lia.
Qed.
Lemma pinv_shorter L L' op fs : pinv L op fs -> prefix L' L -> (forall o p, In (o, p) op -> prefix o L') -> pinv L' op fs.
Proof using.
  intros [H1 H2 H3 H4] P K. split; [exact H1| |exact H3|].
  - intros o p Ho. destruct (H2 o p Ho) as (A & B & C). split; [exact A|]. split; [eapply K; exact Ho|exact C].
  - intros q Pq. apply H4. eapply prefix_trans; eassumption.
Qed.
Lemma finish_ok : forall op L fs, pinv L op fs ->
  exists fs', pc_finish op fs = Some fs' /\ forall j, fs' j = orig j.
Proof using HT.
  induction op as [|[o p] op IH]; intros L fs H.
  - exists fs. split; [reflexivity|]. intros j. apply (pi_rest _ _ _ H). intros [].
  - destruct (put_back _ _ _ _ _ H) as (fs' & E & _ & _ & H'). cbn [pc_finish]. rewrite E. eapply IH, H'.
Qed.

(* the longest common prefix of two paths *)
Fixpoint common (a b : idx) : idx :=
  match a, b with
  | x :: a', y :: b' => if beq_bytes x y then x :: common a' b' else []
  | _, _ => []
  end.
Lemma common_prefix a b q : prefix q a -> prefix q b -> prefix q (common a b).
Proof.
  intros [r ->] [s ->]. exists (common r s). induction q as [|x q IH]; [reflexivity|].
  cbn. rewrite beq_bytes_refl. now f_equal.
Qed.
Lemma common_l a b : prefix (common a b) a.
Proof.
  revert b; induction a as [|x a IH]; intros b; [exists []; reflexivity|]. destruct b as [|y b]; [exists (x :: a); reflexivity|].
  cbn. destruct (beq_bytes x y); [|exists (x :: a); reflexivity]. destruct (IH b) as [r E]. exists r. cbn. now f_equal.
Qed.
Lemma common_r a b : prefix (common a b) b.
Proof.
  revert b; induction a as [|x a IH]; intros b; [exists b; reflexivity|]. destruct b as [|y b]; [exists []; reflexivity|].
  cbn. destruct (beq_bytes x y) eqn:E; [|exists (y :: b); reflexivity]. apply beq_bytes_true in E. subst. destruct (IH b) as [r E]. exists r. cbn. now f_equal.
Qed.

Lemma not_prefix_lt o L i : prefix o L -> idx_lt L i -> ~ prefix o i -> idx_lt o (firstn (length o) i).
Proof.
  intros [r ->] HL N. revert i HL N. unfold idx_lt, idx_cmp. induction o as [|x o IH]; intros i HL N.
  - exfalso. apply N. exists i. reflexivity.
  - destruct i as [|y i]; [discriminate|]. cbn in *. destruct (bytes_cmp x y) eqn:E; try discriminate; [|reflexivity].
    apply (gc_eq _ bytes_good) in E. subst y. apply IH; [exact HL|]. intros [s ->]. apply N. now exists s.
Qed.
Lemma prefix_not_lt o i : prefix o i -> idx_ltb o (firstn (length o) i) = false.
Proof.
  intros H. rewrite <- (prefix_firstn _ _ H). destruct (idx_ltb o o) eqn:E; [|reflexivity]. apply idx_ltb_lt in E. now apply idx_lt_irrefl in E.
Qed.

(* L < i: what is not on the way to i is put back *)
Lemma restore_ok i : forall op L L0 fs, prefix L L0 -> idx_lt L0 i -> pinv L op fs -> (forall q, prefix q L0 -> prefix q i -> prefix q L) ->
  exists op' fs', restore_old i op fs = Some (op', fs') /\ pinv (common L0 i) op' fs'.
Proof using HT.
  induction op as [|[o p] op IH]; intros L L0 fs PL HL H HC.
  - exists [], fs. split; [reflexivity|]. apply (pinv_shorter L); [exact H| |intros ? ? []].
    apply HC; [apply common_l|apply common_r].
  - destruct (pi_open _ _ _ H o p (or_introl eq_refl)) as (Ho & Po & _).
    cbn [restore_old]. destruct (is_prefix o i) eqn:E.
    + apply is_prefix_spec in E. rewrite prefix_not_lt by exact E. eexists _, _. split; [reflexivity|].
      apply (pinv_shorter L); [exact H|apply HC; [apply common_l|apply common_r]|].
      intros o' p' K. destruct (pi_open _ _ _ H o' p' K) as (_ & P' & _).
      apply common_prefix; [eapply prefix_trans; eassumption|].
      destruct K as [K|K]; [injection K as <- <-; exact E|].
      eapply prefix_trans; [|exact E]. apply (prefix_two o' o L P' Po).
      pose proof (pi_chain _ _ _ H) as C. inversion C as [|? ? S1 S2]; subst. rewrite Forall_forall in S2.
      specialize (S2 _ K). cbn in S2. lia.
    + assert (N : ~ prefix o i) by (intros K; apply is_prefix_spec in K; congruence).
      assert (K : idx_ltb o (firstn (length o) i) = true).
      { apply idx_ltb_lt. apply (not_prefix_lt o L0); [eapply prefix_trans; eassumption|exact HL|exact N]. }
      rewrite K. destruct (put_back _ _ _ _ _ H) as (fs' & E1 & _ & _ & H'). rewrite E1.
      apply (IH (removelast o) L0); [|exact HL|exact H'|].
      * eapply prefix_trans; [|exact PL]. eapply prefix_trans; [|exact Po]. exists [last o []]. now apply app_removelast_last.
      * intros q Q1 Q2. pose proof (HC q Q1 Q2) as Q3.
        destruct (Nat.le_gt_cases (length o) (length q)) as [Q4|Q4].
        -- exfalso. apply N. eapply prefix_trans; [|exact Q2]. now apply (prefix_two o q L).
        -- apply (prefix_two q (removelast o) L Q3).
           ++ eapply prefix_trans; [|exact Po]. exists [last o []]. now apply app_removelast_last.
           ++ rewrite (removelast_length o Ho) in Q4. lia.
Qed.

(* opening the path further: one step *)
Lemma open_one L op fs i n : (n < length i)%nat -> prefix L i -> (forall q, prefix q i -> (length q <= n)%nat -> usable (fs q)) ->
  pinv L op fs ->
  forall rest, exists op' fs', add_chmod (firstn (S n) i :: rest) op fs = add_chmod rest op' fs'
    /\ (forall q, prefix q i -> (length q <= S n)%nat -> usable (fs' q))
    /\ pinv (if Nat.leb (S n) (length L) then L else firstn (S n) i) op' fs'.
Proof using HT.
  intros Hn PL HU H rest. set (q := firstn (S n) i).
  assert (Lq : length q = S n) by (unfold q; rewrite firstn_length; lia).
  assert (Pq : prefix q i) by apply firstn_prefix.
  assert (HQ : forall fs', (forall q', prefix q' i -> (length q' <= n)%nat -> usable (fs' q')) -> usable (fs' q) ->
     forall q', prefix q' i -> (length q' <= S n)%nat -> usable (fs' q')).
  { intros fs' A B q' C D. destruct (Nat.eq_dec (length q') (S n)) as [E|E]; [|apply A; [exact C|lia]].
    assert (q' = q) as ->; [|exact B]. unfold q. rewrite <- E. now apply prefix_firstn. }
  assert (LL : pinv (if Nat.leb (S n) (length L) then L else q) op fs \/ ~ usable (fs q)).
  { destruct (Nat.leb (S n) (length L)) eqn:E; [now left|]. apply Nat.leb_gt in E.
    destruct (fs q) as [[k p]|] eqn:Ek.
    - assert (DU : usable (Some (k, p)) \/ ~ usable (Some (k, p))).
      { destruct k; cbn; [destruct (readable p); [now left|right; discriminate]| |now left].
        destruct (executable p), (readable p); intuition congruence. }
      destruct DU as [U|U]; [left|now right].
      destruct H as [H1 H2 H3 H4]. split; [exact H1| |exact H3|].
      + intros o p' K. destruct (H2 o p' K) as (A & B & C). split; [exact A|]. split; [|exact C].
        apply (prefix_two o q i); [eapply prefix_trans; eassumption|exact Pq|]. apply prefix_length in B. lia.
      + intros q' Q'. apply (HQ fs HU); [now rewrite Ek|eapply prefix_trans; eassumption|]. apply prefix_length in Q'. lia.
    - left. destruct H as [H1 H2 H3 H4]. split; [exact H1| |exact H3|].
      + intros o p' K. destruct (H2 o p' K) as (A & B & C). split; [exact A|]. split; [|exact C].
        apply (prefix_two o q i); [eapply prefix_trans; eassumption|exact Pq|]. apply prefix_length in B. lia.
      + intros q' Q'. apply (HQ fs HU); [now rewrite Ek|eapply prefix_trans; eassumption|]. apply prefix_length in Q'. lia. }
  assert (KEEP : usable (fs q) -> exists op' fs', add_chmod rest op fs = add_chmod rest op' fs'
    /\ (forall q, prefix q i -> (length q <= S n)%nat -> usable (fs' q))
    /\ pinv (if Nat.leb (S n) (length L) then L else q) op' fs').
  { intros U. exists op, fs. split; [reflexivity|]. split; [now apply HQ|]. destruct LL as [LL|LL]; [exact LL|now apply LL in U]. }
  assert (Hne : forall k p, fs q = Some (k, p) -> look fs q = Some (k, p)).
  { intros k p E. rewrite same_look; [exact E|]. apply (reach orig fs q HT); [eapply pinv_kinds; eassumption| |].
    - intros q' P' N'. apply HU; [eapply prefix_trans; eassumption|]. pose proof (prefix_length _ _ P').
      destruct (Nat.eq_dec (length q') (length q)) as [E2|]; [exfalso; now apply N', prefix_same_length|lia].
    - intros K. pose proof (pinv_kinds _ _ _ H q) as K2. rewrite K, E in K2. discriminate. }
  assert (OPEN : forall k p, k <> POther -> fs q = Some (k, p) -> ~ usable (Some (k, p)) ->
    exists op' fs', match chmod fs q (widened k p) with Some fs' => add_chmod rest ((q, p) :: op) fs' | None => None end = add_chmod rest op' fs'
    /\ (forall q, prefix q i -> (length q <= S n)%nat -> usable (fs' q))
    /\ pinv (if Nat.leb (S n) (length L) then L else q) op' fs').
  { intros k p Hk E NU.
    assert (NL : (length L < S n)%nat).
    { destruct (Nat.le_gt_cases (S n) (length L)) as [C|C]; [|exact C]. exfalso. apply NU. rewrite <- E. apply (pi_usable _ _ _ H).
      apply (prefix_two q L i Pq PL). lia. }
    assert (EL : Nat.leb (S n) (length L) = false) by (apply Nat.leb_gt; lia). rewrite EL.
    assert (NI : ~ In q (map fst op)).
    { intros C. apply in_map_iff in C. destruct C as ([o p'] & <- & C). destruct (pi_open _ _ _ H o p' C) as (_ & B & _).
      apply prefix_length in B. cbn [fst] in *. lia. }
    unfold chmod. rewrite (Hne k p E). eexists _, _. split; [reflexivity|].
    set (fs' := fun j => if idx_eqb q j then Some (k, widened k p) else fs j).
    assert (F1 : fs' q = Some (k, widened k p)) by (unfold fs'; now rewrite idx_eqb_refl).
    assert (F2 : forall j, j <> q -> fs' j = fs j).
    { intros j Hj. unfold fs'. destruct (idx_eqb q j) eqn:E2; [|reflexivity]. apply idx_eqb_eq in E2. congruence. }
    assert (UF : forall q', prefix q' i -> (length q' <= S n)%nat -> usable (fs' q')).
    { apply HQ.
      - intros q' A B. rewrite F2; [now apply HU|]. intros ->. lia.
      - rewrite F1. apply usable_widened. }
    split; [exact UF|]. split.
    - constructor; [apply (pi_chain _ _ _ H)|]. apply Forall_forall. intros [o p'] C. cbn [fst].
      destruct (pi_open _ _ _ H o p' C) as (_ & B & _). apply prefix_length in B. lia.
    - intros o p' [C|C].
      + injection C as <- <-. split; [intros K; rewrite K in Lq; discriminate|]. split; [apply prefix_refl|].
        exists k. split; [exact Hk|]. split; [|exact F1]. rewrite <- (pi_rest _ _ _ H q NI). exact E.
      + destruct (pi_open _ _ _ H o p' C) as (A & B & k' & D1 & D2 & D3). split; [exact A|]. split.
        * apply (prefix_two o q i); [eapply prefix_trans; eassumption|exact Pq|]. apply prefix_length in B. lia.
        * exists k'. split; [exact D1|]. split; [exact D2|]. rewrite F2; [exact D3|]. intros ->. apply NI. apply in_map_iff. now exists (q, p').
    - intros j Hj. cbn [map fst] in Hj. rewrite F2; [apply (pi_rest _ _ _ H); intros C; apply Hj; now right|intros ->; apply Hj; now left].
    - intros q' Q'. apply UF; [eapply prefix_trans; eassumption|]. apply prefix_length in Q'. lia. }
  cbn [add_chmod]. destruct (fs q) as [[k p]|] eqn:Ek.
  - rewrite (Hne k p eq_refl). destruct k.
    + destruct (readable p) eqn:R; [apply KEEP; exact R|]. apply (OPEN PReg p); [discriminate|reflexivity|]. cbn. congruence.
    + destruct (executable p && readable p) eqn:R; [apply KEEP; apply andb_prop in R; exact R|].
      apply (OPEN PDir p); [discriminate|reflexivity|]. cbn. intros [A B]. rewrite A, B in R. discriminate.
    + now apply KEEP.
  - assert (E : look fs q = None) by (unfold look; rewrite Ek; destruct (reachable fs q); reflexivity). rewrite E. now apply KEEP.
Qed.
Lemma open_all i : forall m n L op fs, (n + m = length i)%nat -> prefix L i ->
  (forall q, prefix q i -> (length q <= n)%nat -> usable (fs q)) -> pinv L op fs ->
  exists op' fs', add_chmod (map (fun k => firstn k i) (seq (S n) m)) op fs = Some (op', fs') /\ pinv i op' fs'.
Proof using HT.
  induction m as [|m IH]; intros n L op fs Hn PL HU H.
  - exists op, fs. split; [reflexivity|].
    destruct H as [H1 H2 H3 H4]. split; [exact H1| |exact H3|].
    + intros o p K. destruct (H2 o p K) as (A & B & C). split; [exact A|]. split; [eapply prefix_trans; eassumption|exact C].
    + intros q Q. apply HU; [exact Q|]. apply prefix_length in Q. lia.
  - cbn [seq map]. destruct (open_one L op fs i n) with (rest := map (fun k => firstn k i) (seq (S (S n)) m)) as (op' & fs' & E & U & H'); try assumption; [lia|].
    rewrite E. apply (IH (S n) _ op' fs') in H'; [exact H'|lia| |exact U].
    destruct (Nat.leb (S n) (length L)); [exact PL|apply firstn_prefix].
Qed.
Lemma common_len_spec n old i : (n <= length i)%nat ->
  prefix (firstn (common_len n old i) i) old /\ (n = O \/ (common_len n old i < n)%nat).
Proof.
  induction n as [|m IH]; intros Hn; [split; [exists old; reflexivity|now left]|]. cbn [common_len].
  destruct (idx_eqb (firstn m old) (firstn m i)) eqn:E.
  - apply idx_eqb_eq in E. rewrite <- E. split; [apply firstn_prefix|right; lia].
  - destruct (IH ltac:(lia)) as [A B]. split; [exact A|]. right. destruct B as [->|B]; [|lia]. cbn. lia.
Qed.

(* one call: further on, or back on the same way *)
Lemma call_ok s L i : pinv L (pc_open s) (pc_fs s) -> prefix (pc_current s) L -> idx_lt L i \/ prefix i L ->
  exists s' L', pc_call s i = Some s' /\ pinv L' (pc_open s') (pc_fs s') /\ prefix (pc_current s') L' /\ prefix i L'
    /\ (idx_lt L i -> L' = i) /\ (prefix i L -> L' = L).
Proof using HT.
  intros H PC HC.
  assert (STAY : prefix i L -> exists s' L', Some (mk_pc i (pc_open s) (pc_fs s)) = Some s' /\ pinv L' (pc_open s') (pc_fs s') /\ prefix (pc_current s') L' /\ prefix i L'
    /\ (idx_lt L i -> L' = i) /\ (prefix i L -> L' = L)).
  { intros P. exists (mk_pc i (pc_open s) (pc_fs s)), L. split; [reflexivity|]. cbn [pc_open pc_fs pc_current].
    split; [exact H|]. split; [exact P|]. split; [exact P|]. split; [|reflexivity]. intros K. exfalso.
    destruct (prefix_le _ _ P) as [->|Q]; [now apply idx_lt_irrefl in K|]. apply (idx_lt_irrefl i). eapply idx_lt_trans; eassumption. }
  unfold pc_call. destruct i as [|c i0]; [apply STAY; exists L; reflexivity|]. set (i := c :: i0) in *.
  destruct (idx_eqb i (pc_current s) || idx_ltb i (pc_current s)) eqn:E.
  - apply STAY. assert (P : prefix i L \/ idx_lt L i) by tauto. destruct P as [P|P]; [exact P|]. exfalso.
    assert (Q : i = L \/ idx_lt i L).
    { apply orb_prop in E. destruct (prefix_le _ _ PC) as [K|K].
      - destruct E as [E|E]; [left; apply idx_eqb_eq in E; congruence|right; apply idx_ltb_lt in E; congruence].
      - right. destruct E as [E|E]; [apply idx_eqb_eq in E; now rewrite E|apply idx_ltb_lt in E; eapply idx_lt_trans; eassumption]. }
    apply (idx_lt_irrefl i). eapply idx_le_lt_trans; eassumption.
  - apply orb_false_elim in E. destruct E as [E1 E2].
    destruct (common_len_spec (length i) (pc_current s) i (Nat.le_refl _)) as [C1 C2].
    set (n := common_len (length i) (pc_current s) i) in *.
    assert (Hn : (n <= length i)%nat) by (destruct C2 as [C2|C2]; [discriminate|lia]).
    assert (UN : forall fs q, prefix q i -> (length q <= n)%nat -> (forall q', prefix q' L -> prefix q' i -> usable (fs q')) -> usable (fs q)).
    { intros fs q P1 P2 U. apply U; [|exact P1]. eapply prefix_trans; [|exact PC]. eapply prefix_trans; [|exact C1].
      apply (prefix_two q (firstn n i) i P1 (firstn_prefix i)). rewrite firstn_length. lia. }
    destruct (is_prefix i L) eqn:EP.
    + apply is_prefix_spec in EP.
      assert (RO : restore_old i (pc_open s) (pc_fs s) = Some (pc_open s, pc_fs s)).
      { destruct (pc_open s) as [|[o p] r] eqn:Eo; [reflexivity|]. cbn [restore_old].
        destruct (pi_open _ _ _ H o p (or_introl eq_refl)) as (_ & Po & _).
        destruct (idx_ltb o (firstn (length o) i)) eqn:E; [|reflexivity]. apply idx_ltb_lt in E. exfalso.
        destruct (Nat.le_gt_cases (length o) (length i)) as [Q|Q].
        - rewrite <- (prefix_firstn o i) in E by now apply (prefix_two o i L). now apply idx_lt_irrefl in E.
        - rewrite firstn_all2 in E by lia. assert (P : prefix i o) by (apply (prefix_two i o L); try assumption; lia).
          destruct (prefix_le _ _ P) as [K|K]; [rewrite K in E; now apply idx_lt_irrefl in E|].
          apply (idx_lt_irrefl o). eapply idx_lt_trans; eassumption. }
      rewrite RO.
      assert (AC : forall l, (forall q, In q l -> prefix q L) -> add_chmod l (pc_open s) (pc_fs s) = Some (pc_open s, pc_fs s)).
      { clear -H. induction l as [|q l IH]; intros Hl; [reflexivity|]. cbn [add_chmod].
        assert (IH' := IH (fun x K => Hl x (or_intror K))).
        pose proof (pi_usable _ _ _ H q (Hl q (or_introl eq_refl))) as U.
        unfold look. destruct (reachable (pc_fs s) q); [|exact IH']. destruct (pc_fs s q) as [[[| |] p]|]; cbn in U; try exact IH'.
        - rewrite U. exact IH'.
        - destruct U as [-> ->]. exact IH'. }
      rewrite AC; [now apply STAY|]. intros q Hq. unfold new_paths in Hq. apply in_map_iff in Hq. destruct Hq as (k & <- & _).
      eapply prefix_trans; [apply firstn_prefix|exact EP].
    + assert (LT : idx_lt L i). { destruct HC as [HC|HC]; [exact HC|]. apply is_prefix_spec in HC. congruence. }
      destruct (restore_ok i (pc_open s) L L (pc_fs s) (prefix_refl L) LT H (fun q A B => A)) as (op & fs & R1 & R2).
      rewrite R1. unfold new_paths. fold n.
      destruct (open_all i (length i - n) n (common L i) op fs) as (op' & fs' & O1 & O2); [lia|apply common_r| |exact R2|].
      * intros q P1 P2. apply UN; [exact P1|exact P2|]. intros q' A B. apply (pi_usable _ _ _ R2). now apply common_prefix.
      * rewrite O1. exists (mk_pc i op' fs'), i. split; [reflexivity|]. cbn [pc_open pc_fs pc_current]. split; [exact O2|].
        split; [apply prefix_refl|]. split; [apply prefix_refl|]. split; [reflexivity|].
        intros P. apply is_prefix_spec in P. congruence.
Qed.
Lemma pinv_init : pinv [] [] orig.
Proof using HT.
  split; [constructor|intros o p []|reflexivity|]. intros q [r E]. symmetry in E. apply app_eq_nil in E. destruct E as [-> _]. apply HT.
Qed.
End PC.
