(** Lemmas about M_Iter *)
From Coq Require Import List Bool NArith Ascii Lia Sorting.Sorted Sorting.Permutation.
From Verif Require Import Base L_Base M_Iter.
Import List ListNotations.

(** ** The order *)
Record good_cmp {T} (cmp : T -> T -> comparison) : Prop := {
  gc_eq : forall x y, cmp x y = Eq <-> x = y;
  gc_opp : forall x y, cmp y x = CompOpp (cmp x y);
  gc_trans : forall x y z, cmp x y = Lt -> cmp y z = Lt -> cmp x z = Lt }.

Lemma lex_good {T} (cmp : T -> T -> comparison) : good_cmp cmp -> good_cmp (lex_cmp cmp).
Proof.
  intros [He Ho Ht]. constructor.
  - induction x as [|a x IH]; intros [|b y]; cbn; try (split; congruence).
    destruct (cmp a b) eqn:E.
    + apply He in E. subst. rewrite IH. split; congruence.
    + split; [discriminate|]. intros [= -> ->]. now rewrite (proj2 (He b b) eq_refl) in E.
    + split; [discriminate|]. intros [= -> ->]. now rewrite (proj2 (He b b) eq_refl) in E.
  - induction x as [|a x IH]; intros [|b y]; cbn; try reflexivity.
    rewrite (Ho a b). destruct (cmp a b); cbn; auto.
  - induction x as [|a x IH]; intros [|b y] [|c z]; cbn; try congruence.
    destruct (cmp a b) eqn:E1; try discriminate.
    + apply He in E1. subst. intros H. destruct (cmp b c) eqn:E2; try discriminate; auto.
      intros H2. eapply IH; eauto.
    + intros _. destruct (cmp b c) eqn:E2; try discriminate.
      * apply He in E2. subst. now rewrite E1.
      * intros _. now rewrite (Ht _ _ _ E1 E2).
Qed.

Lemma byte_good : good_cmp byte_cmp.
Proof.
  unfold byte_cmp. constructor.
  - intros x y. rewrite N.compare_eq_iff. split; [|congruence].
    intros H. rewrite <- (ascii_N_embedding x), <- (ascii_N_embedding y). congruence.
  - intros. apply N.compare_antisym.
  - intros x y z. rewrite !N.compare_lt_iff. lia.
Qed.
Lemma bytes_good : good_cmp bytes_cmp.
Proof. apply lex_good, byte_good. Qed.
Lemma idx_good : good_cmp idx_cmp.
Proof. apply lex_good, bytes_good. Qed.

Definition idx_lt (x y : idx) : Prop := idx_cmp x y = Lt.

Lemma idx_cmp_eq x y : idx_cmp x y = Eq <-> x = y.
Proof. apply (gc_eq _ idx_good). Qed.
Lemma idx_cmp_refl x : idx_cmp x x = Eq.
Proof. now apply idx_cmp_eq. Qed.
Lemma idx_eqb_eq x y : idx_eqb x y = true <-> x = y.
Proof. unfold idx_eqb. rewrite <- idx_cmp_eq. destruct (idx_cmp x y); split; congruence. Qed.
Lemma idx_eqb_refl x : idx_eqb x x = true.
Proof. now apply idx_eqb_eq. Qed.
Lemma idx_eqb_neq x y : idx_eqb x y = false <-> x <> y.
Proof. rewrite <- idx_eqb_eq. destruct (idx_eqb x y); split; congruence. Qed.
Lemma idx_ltb_lt x y : idx_ltb x y = true <-> idx_lt x y.
Proof. unfold idx_ltb, idx_lt. destruct (idx_cmp x y); split; congruence. Qed.
Lemma idx_cmp_gt x y : idx_cmp x y = Gt <-> idx_lt y x.
Proof.
  unfold idx_lt. rewrite (gc_opp _ idx_good y x).
  destruct (idx_cmp y x); cbn; split; congruence.
Qed.
Lemma idx_lt_trans x y z : idx_lt x y -> idx_lt y z -> idx_lt x z.
Proof. apply (gc_trans _ idx_good). Qed.
Lemma idx_lt_irrefl x : ~ idx_lt x x.
Proof. unfold idx_lt. rewrite idx_cmp_refl. discriminate. Qed.
Lemma idx_lt_neq x y : idx_lt x y -> x <> y.
Proof. intros H ->. now apply idx_lt_irrefl in H. Qed.
Lemma idx_trichotomy x y : idx_lt x y \/ x = y \/ idx_lt y x.
Proof.
  unfold idx_lt at 1. destruct (idx_cmp x y) eqn:E; [|tauto|].
  - apply idx_cmp_eq in E. tauto.
  - apply idx_cmp_gt in E. tauto.
Qed.

(** ** Prefixes *)
Definition prefix (p i : idx) : Prop := exists r, i = p ++ r.

Lemma is_prefix_spec p i : is_prefix p i = true <-> prefix p i.
Proof.
  unfold is_prefix. rewrite idx_eqb_eq. split.
  - intros H. exists (skipn (length p) i). rewrite <- (firstn_skipn (length p) i) at 1. now rewrite <- H.
  - intros [r ->]. rewrite firstn_app, firstn_all, Nat.sub_diag. cbn. now rewrite app_nil_r.
Qed.
Lemma prefix_refl p : prefix p p.
Proof. exists []. now rewrite app_nil_r. Qed.
Lemma prefix_trans p q r : prefix p q -> prefix q r -> prefix p r.
Proof. intros [x ->] [y ->]. exists (x ++ y). now rewrite app_assoc. Qed.
Lemma prefix_le p i : prefix p i -> p = i \/ idx_lt p i.
Proof.
  intros [r ->]. unfold idx_lt. induction p as [|a p IH]; cbn.
  - destruct r; auto.
  - assert (E : bytes_cmp a a = Eq) by now apply (gc_eq _ bytes_good).
    rewrite E. destruct IH as [IH|IH]; [|right; exact IH]. left. now rewrite <- IH.
Qed.
Lemma prefix_antisym p q : prefix p q -> prefix q p -> p = q.
Proof.
  intros H1 H2. destruct (prefix_le _ _ H1) as [|L1]; auto.
  destruct (prefix_le _ _ H2) as [|L2]; auto. exfalso. eapply idx_lt_irrefl, idx_lt_trans; eauto.
Qed.

(** what lies below a path is contiguous in the order *)
Lemma prefix_between d x y : (d = x \/ idx_lt d x) -> idx_lt x y -> prefix d y -> prefix d x.
Proof.
  intros Hdx Hxy [r ->]. destruct Hdx as [->|Hdx]; [apply prefix_refl|].
  revert x Hdx Hxy. unfold idx_lt. induction d as [|a d IH]; intros x H1 H2.
  - exists x. reflexivity.
  - destruct x as [|b x]; [discriminate|]. cbn in *.
    destruct (bytes_cmp a b) eqn:E1; try discriminate.
    + apply (gc_eq _ bytes_good) in E1. subst b.
      assert (E : bytes_cmp a a = Eq) by now apply (gc_eq _ bytes_good). rewrite E in H2.
      destruct (IH x H1 H2) as [w ->]. now exists w.
    + rewrite (gc_opp _ bytes_good a b), E1 in H2. discriminate.
Qed.

(** ** Collation *)
Definition sorted_by {A} (key : A -> idx) (l : list A) : Prop :=
  StronglySorted (fun x y => idx_lt (key x) (key y)) l.

Section C2.
Context {A B : Type}.
Variable keyA : A -> idx.
Variable keyB : B -> idx.

Definition pair_key (p : option A * option B) : idx :=
  match p with
  | (Some x, _) => keyA x
  | (None, Some y) => keyB y
  | (None, None) => []
  end.

Lemma collate2_nil l2 : collate2 keyA keyB [] l2 = map (fun y => (None, Some y)) l2.
Proof. now destruct l2. Qed.
Lemma collate2_nil_r l1 : collate2 keyA keyB l1 [] = map (fun x => (Some x, None)) l1.
Proof. now destruct l1. Qed.
Lemma collate2_cons x l1 y l2 : collate2 keyA keyB (x :: l1) (y :: l2) =
  match idx_cmp (keyA x) (keyB y) with
  | Lt => (Some x, None) :: collate2 keyA keyB l1 (y :: l2)
  | Eq => (Some x, Some y) :: collate2 keyA keyB l1 l2
  | Gt => (None, Some y) :: collate2 keyA keyB (x :: l1) l2
  end.
Proof. reflexivity. Qed.

(* induction principle *)
Lemma collate2_ind (P : list A -> list B -> Prop) :
  (forall l2, P [] l2) -> (forall l1, P l1 []) ->
  (forall x l1 y l2, P l1 (y :: l2) -> P l1 l2 -> P (x :: l1) l2 -> P (x :: l1) (y :: l2)) ->
  forall l1 l2, P l1 l2.
Proof.
  intros H1 H2 H3. induction l1 as [|x l1 IH1]; [auto|]. induction l2 as [|y l2 IH2]; auto.
Qed.

Lemma sorted_inv {C} (key : C -> idx) x l : sorted_by key (x :: l) ->
  sorted_by key l /\ forall y, In y l -> idx_lt (key x) (key y).
Proof. intros H. inversion H; subst. split; [assumption|]. now apply Forall_forall. Qed.

Lemma sorted_cons {C} (key : C -> idx) x l : sorted_by key l ->
  (forall y, In y l -> idx_lt (key x) (key y)) -> sorted_by key (x :: l).
Proof. intros. constructor; [assumption|]. now apply Forall_forall. Qed.

(** every pair of the result comes from the lists *)
Lemma collate2_sound l1 l2 p : In p (collate2 keyA keyB l1 l2) ->
  match p with
  | (Some x, Some y) => In x l1 /\ In y l2 /\ keyA x = keyB y
  | (Some x, None) => In x l1
  | (None, Some y) => In y l2
  | (None, None) => False
  end.
Proof.
  revert p. apply collate2_ind with (l1 := l1) (l2 := l2); clear l1 l2.
  - intros l2 p. rewrite collate2_nil. intros H. apply in_map_iff in H as (y & <- & H). exact H.
  - intros l1 p. rewrite collate2_nil_r. intros H. apply in_map_iff in H as (y & <- & H). exact H.
  - intros x l1 y l2 IHL IHE IHG p. rewrite collate2_cons.
    destruct (idx_cmp (keyA x) (keyB y)) eqn:E; intros [<-|H].
    + apply idx_cmp_eq in E. cbn. auto.
    + specialize (IHE p H). destruct p as [[?|] [?|]]; cbn; intuition.
    + cbn. auto.
    + specialize (IHL p H). destruct p as [[?|] [?|]]; cbn in *; intuition.
    + cbn. auto.
    + specialize (IHG p H). destruct p as [[?|] [?|]]; cbn in *; intuition.
Qed.

Lemma collate2_key_sound l1 l2 p : In p (collate2 keyA keyB l1 l2) ->
  (exists x, In x l1 /\ pair_key p = keyA x) \/ (exists y, In y l2 /\ pair_key p = keyB y).
Proof.
  intros H. apply collate2_sound in H. destruct p as [[x|] [y|]]; cbn in *.
  - left. exists x. tauto.
  - left. eauto.
  - right. eauto.
  - destruct H.
Qed.

Lemma collate2_sorted l1 l2 : sorted_by keyA l1 -> sorted_by keyB l2 ->
  sorted_by pair_key (collate2 keyA keyB l1 l2).
Proof.
  apply collate2_ind with (l1 := l1) (l2 := l2); clear l1 l2.
  - intros l2 _ H. rewrite collate2_nil. induction l2 as [|y l2 IH]; cbn; [constructor|].
    apply sorted_inv in H as [H1 H2]. apply sorted_cons; auto.
    intros p Hp. apply in_map_iff in Hp as (z & <- & Hz). cbn. auto.
  - intros l1 H _. rewrite collate2_nil_r. induction l1 as [|y l1 IH]; cbn; [constructor|].
    apply sorted_inv in H as [H1 H2]. apply sorted_cons; auto.
    intros p Hp. apply in_map_iff in Hp as (z & <- & Hz). cbn. auto.
  - intros x l1 y l2 IHL IHE IHG S1 S2. rewrite collate2_cons.
    pose proof (sorted_inv _ _ _ S1) as [S1' F1]. pose proof (sorted_inv _ _ _ S2) as [S2' F2].
    destruct (idx_cmp (keyA x) (keyB y)) eqn:E; apply sorted_cons; auto; intros p Hp;
      apply collate2_key_sound in Hp; cbn [pair_key].
    + apply idx_cmp_eq in E. destruct Hp as [(z & Hz & ->)|(z & Hz & ->)]; auto. rewrite E. auto.
    + destruct Hp as [(z & Hz & ->)|(z & [<-|Hz] & ->)]; auto.
      eapply idx_lt_trans; [exact E|]. auto.
    + apply idx_cmp_gt in E. destruct Hp as [(z & [<-|Hz] & ->)|(z & Hz & ->)]; auto.
      eapply idx_lt_trans; [exact E|]. auto.
Qed.

Lemma collate2_complete_l l1 l2 x : sorted_by keyA l1 -> sorted_by keyB l2 -> In x l1 ->
  (exists y, In y l2 /\ keyB y = keyA x /\ In (Some x, Some y) (collate2 keyA keyB l1 l2)) \/
  ((forall y, In y l2 -> keyB y <> keyA x) /\ In (Some x, None) (collate2 keyA keyB l1 l2)).
Proof.
  revert x. apply collate2_ind with (l1 := l1) (l2 := l2); clear l1 l2.
  - intros l2 x _ _ [].
  - intros l1 x _ _ H. right. rewrite collate2_nil_r. split; [intros ? []|].
    apply in_map_iff. eauto.
  - intros x l1 y l2 IHL IHE IHG z S1 S2 Hz. rewrite collate2_cons.
    pose proof (sorted_inv _ _ _ S1) as [S1' F1]. pose proof (sorted_inv _ _ _ S2) as [S2' F2].
    destruct (idx_cmp (keyA x) (keyB y)) eqn:E.
    + apply idx_cmp_eq in E. destruct Hz as [<-|Hz].
      * left. exists y. cbn. auto.
      * destruct (IHE z S1' S2' Hz) as [(w & H1 & H2 & H3)|[H1 H2]]; [left; exists w; cbn; auto|].
        right. split; [|cbn; auto]. intros w [<-|Hw]; auto.
        specialize (F1 z Hz). rewrite E in F1. now apply idx_lt_neq.
    + destruct Hz as [<-|Hz].
      * right. split; [|cbn; auto]. intros w [<-|Hw]; intros Ew.
        -- symmetry in Ew. revert Ew. apply idx_lt_neq. exact E.
        -- symmetry in Ew. revert Ew. apply idx_lt_neq. eapply idx_lt_trans; [exact E|]. auto.
      * destruct (IHL z S1' S2 Hz) as [(w & H1 & H2 & H3)|[H1 H2]]; [left; exists w; cbn in *; auto|].
        right. split; [assumption|]. cbn; auto.
    + apply idx_cmp_gt in E.
      destruct (IHG z S1 S2' Hz) as [(w & H1 & H2 & H3)|[H1 H2]]; [left; exists w; cbn in *; auto|].
      right. split; [|cbn; auto]. intros w [<-|Hw]; auto. apply idx_lt_neq.
      destruct Hz as [<-|Hz]; auto. eapply idx_lt_trans; [exact E|]. auto.
Qed.

Lemma collate2_complete_r l1 l2 y : sorted_by keyA l1 -> sorted_by keyB l2 -> In y l2 ->
  (exists x, In x l1 /\ keyA x = keyB y /\ In (Some x, Some y) (collate2 keyA keyB l1 l2)) \/
  ((forall x, In x l1 -> keyA x <> keyB y) /\ In (None, Some y) (collate2 keyA keyB l1 l2)).
Proof.
  revert y. apply collate2_ind with (l1 := l1) (l2 := l2); clear l1 l2.
  - intros l2 x _ _ H. right. rewrite collate2_nil. split; [intros ? []|].
    apply in_map_iff. eauto.
  - intros l1 x _ _ [].
  - intros x l1 y l2 IHL IHE IHG z S1 S2 Hz. rewrite collate2_cons.
    pose proof (sorted_inv _ _ _ S1) as [S1' F1]. pose proof (sorted_inv _ _ _ S2) as [S2' F2].
    destruct (idx_cmp (keyA x) (keyB y)) eqn:E.
    + apply idx_cmp_eq in E. destruct Hz as [<-|Hz].
      * left. exists x. cbn. auto.
      * destruct (IHE z S1' S2' Hz) as [(w & H1 & H2 & H3)|[H1 H2]]; [left; exists w; cbn; auto|].
        right. split; [|cbn; auto]. intros w [<-|Hw]; auto.
        specialize (F2 z Hz). rewrite <- E in F2. now apply idx_lt_neq.
    + destruct (IHL z S1' S2 Hz) as [(w & H1 & H2 & H3)|[H1 H2]]; [left; exists w; cbn in *; auto|].
      right. split; [|cbn; auto]. intros w [<-|Hw]; auto. apply idx_lt_neq.
      destruct Hz as [<-|Hz]; [exact E|]. eapply idx_lt_trans; [exact E|]. auto.
    + apply idx_cmp_gt in E. destruct Hz as [<-|Hz].
      * right. split; [|cbn; auto]. intros w [<-|Hw]; intros Ew.
        -- symmetry in Ew. revert Ew. now apply idx_lt_neq.
        -- symmetry in Ew. revert Ew. apply idx_lt_neq. eapply idx_lt_trans; [exact E|]. auto.
      * destruct (IHG z S1 S2' Hz) as [(w & H1 & H2 & H3)|[H1 H2]]; [left; exists w; cbn in *; auto|].
        right. split; [assumption|]. cbn; auto.
Qed.
End C2.

(** lookup by key in a list *)
Fixpoint find_key {A} (key : A -> idx) (i : idx) (l : list A) : option A :=
  match l with
  | [] => None
  | x :: l' => if idx_eqb (key x) i then Some x else find_key key i l'
  end.

Lemma find_key_some {A} (key : A -> idx) i l x : find_key key i l = Some x -> In x l /\ key x = i.
Proof.
  induction l as [|y l IH]; cbn; [discriminate|]. destruct (idx_eqb (key y) i) eqn:E.
  - intros [= <-]. apply idx_eqb_eq in E. auto.
  - intros H. destruct (IH H). auto.
Qed.
Lemma find_key_none {A} (key : A -> idx) i l : find_key key i l = None <-> forall x, In x l -> key x <> i.
Proof.
  induction l as [|y l IH]; cbn; [split; [intros _ ? []|reflexivity]|].
  destruct (idx_eqb (key y) i) eqn:E.
  - apply idx_eqb_eq in E. split; [discriminate|]. intros H. exfalso. apply (H y); auto.
  - apply idx_eqb_neq in E. rewrite IH. split.
    + intros H x [<-|Hx]; auto.
    + intros H x Hx. auto.
Qed.
Lemma find_key_in {A} (key : A -> idx) l x : sorted_by key l -> In x l -> find_key key (key x) l = Some x.
Proof.
  induction l as [|y l IH]; intros S H; [destruct H|]. apply sorted_inv in S as [S F]. cbn.
  destruct H as [->|H]; [now rewrite idx_eqb_refl|].
  specialize (F x H). apply idx_lt_neq in F. rewrite (proj2 (idx_eqb_neq _ _) F). auto.
Qed.

(** ** n-fold collation *)
Section CN.
Context {A : Type}.
Variable key : A -> idx.
Notation heads := (@heads A).

Lemma idx_min_spec x y : (idx_min x y = x \/ idx_min x y = y) /\
  (idx_min x y = x \/ idx_lt (idx_min x y) x) /\ (idx_min x y = y \/ idx_lt (idx_min x y) y).
Proof.
  unfold idx_min. destruct (idx_ltb y x) eqn:E.
  - apply idx_ltb_lt in E. auto.
  - split; [auto|]. split; [auto|].
    destruct (idx_trichotomy x y) as [H|[H|H]]; auto.
    apply idx_ltb_lt in H. congruence.
Qed.

Lemma least_none hs : least key hs = None -> forall h, In h hs -> h = None.
Proof.
  induction hs as [|[x|] hs IH]; cbn; [intros _ ? []|destruct (least key hs); discriminate|].
  intros H h [<-|Hh]; auto.
Qed.
Lemma least_some hs i : least key hs = Some i ->
  (exists x, In (Some x) hs /\ key x = i) /\
  forall x, In (Some x) hs -> key x = i \/ idx_lt i (key x).
Proof.
  revert i. induction hs as [|[x|] hs IH]; cbn; intros i H; [discriminate| |].
  - destruct (least key hs) as [j|] eqn:E.
    + injection H as <-. destruct (IH j eq_refl) as [(y & Hy & Ey) Hall].
      destruct (idx_min_spec (key x) j) as (H1 & H2 & H3). split.
      * destruct H1 as [H1|H1]; rewrite H1; [exists x; auto|exists y; auto].
      * intros z [[= <-]|Hz].
        -- destruct H2 as [H2|H2]; auto.
        -- destruct H3 as [H3|H3]; [rewrite H3; auto|].
           destruct (Hall z Hz) as [->|Hlt]; [now right|]. right. eapply idx_lt_trans; eauto.
    + injection H as <-. split; [eauto|]. intros z [[= <-]|Hz]; auto.
      apply (least_none hs E) in Hz. discriminate.
  - destruct (IH i H) as [(y & Hy & Ey) Hall]. split; [eauto|].
    intros z [Hz|Hz]; [discriminate|auto].
Qed.

Lemma heads_in ls x : In (Some x) (heads ls) <-> exists l', In (x :: l') ls.
Proof.
  unfold M_Iter.heads. rewrite in_map_iff. split.
  - intros (l & E & Hl). destruct l as [|y l]; [discriminate|]. injection E as ->. eauto.
  - intros (l' & Hl). exists (x :: l'). auto.
Qed.

(* the least index, the rest *)
Lemma least_all ls i : Forall (sorted_by key) ls -> least key (heads ls) = Some i ->
  forall l x, In l ls -> In x l -> key x = i \/ idx_lt i (key x).
Proof.
  intros HS HL l x Hl Hx. rewrite Forall_forall in HS. specialize (HS l Hl).
  destruct l as [|y l]; [destruct Hx|].
  assert (In (Some y) (heads ls)) as Hy by (apply heads_in; eauto).
  destruct (least_some _ _ HL) as [_ H]. specialize (H y Hy).
  destruct Hx as [->|Hx]; [assumption|].
  apply sorted_inv in HS as [_ F]. specialize (F x Hx). right.
  destruct H as [<-|H]; [assumption|]. eapply idx_lt_trans; eauto.
Qed.

Lemma take_find l i : sorted_by key l -> (forall x, In x l -> key x = i \/ idx_lt i (key x)) ->
  take_at key i l = find_key key i l.
Proof.
  intros S H. destruct l as [|y l]; [reflexivity|]. cbn.
  destruct (idx_eqb (key y) i) eqn:E; [reflexivity|]. symmetry. apply find_key_none.
  intros x Hx Ex. apply sorted_inv in S as [_ F]. specialize (F x Hx).
  apply idx_eqb_neq in E. destruct (H y (or_introl eq_refl)) as [|Hy]; [contradiction|].
  subst i. eapply idx_lt_irrefl, idx_lt_trans; eauto.
Qed.

Lemma drop_find l i j : sorted_by key l -> (forall x, In x l -> key x = i \/ idx_lt i (key x)) ->
  idx_lt i j -> find_key key j (drop_at key i l) = find_key key j l.
Proof.
  intros S H Hij. destruct l as [|y l]; [reflexivity|]. cbn.
  destruct (idx_eqb (key y) i) eqn:E; [|reflexivity].
  apply idx_eqb_eq in E. subst i.
  now rewrite (proj2 (idx_eqb_neq _ _) (idx_lt_neq _ _ Hij)).
Qed.

Lemma drop_in l i x : sorted_by key l -> (forall x, In x l -> key x = i \/ idx_lt i (key x)) ->
  (In x (drop_at key i l) <-> In x l /\ idx_lt i (key x)).
Proof.
  intros S H. destruct l as [|y l]; [cbn; tauto|].
  pose proof (sorted_inv _ _ _ S) as [S' F]. cbn [drop_at].
  destruct (idx_eqb (key y) i) eqn:E.
  - apply idx_eqb_eq in E. subst i. split.
    + intros Hx. split; [now right|auto].
    + intros [[<-|Hx] Hl]; [exfalso; now apply idx_lt_irrefl in Hl|assumption].
  - apply idx_eqb_neq in E. split; [|tauto]. intros Hx. split; [assumption|].
    destruct (H y (or_introl eq_refl)) as [|Hy]; [contradiction|].
    destruct Hx as [<-|Hx]; [assumption|]. eapply idx_lt_trans; eauto.
Qed.

Lemma drop_sorted l i : sorted_by key l -> sorted_by key (drop_at key i l).
Proof.
  destruct l as [|y l]; [auto|]. intros S. cbn. destruct (idx_eqb (key y) i); [|assumption].
  now apply sorted_inv in S as [S _].
Qed.

Lemma drop_length_le i (ls : list (list A)) : length (concat (map (drop_at key i) ls)) <= length (concat ls).
Proof.
  induction ls as [|l ls IH]; cbn; [lia|]. rewrite !app_length.
  assert (length (drop_at key i l) <= length l) by (destruct l; cbn; [lia|destruct (idx_eqb _ _); cbn; lia]).
  lia.
Qed.

Lemma drop_length i (ls : list (list A)) : least key (heads ls) = Some i ->
  length (concat (map (drop_at key i) ls)) < length (concat ls).
Proof.
  intros H. destruct (least_some _ _ H) as [(x & Hx & Ex) _].
  apply heads_in in Hx as [l' Hl]. clear H. induction ls as [|l ls IH]; [destruct Hl|].
  cbn. rewrite !app_length. pose proof (drop_length_le i ls).
  destruct Hl as [->|Hl].
  - cbn. rewrite (proj2 (idx_eqb_eq _ _) Ex). lia.
  - specialize (IH Hl).
    assert (length (drop_at key i l) <= length l) by (destruct l; cbn; [lia|destruct (idx_eqb _ _); cbn; lia]).
    lia.
Qed.

(** a row per index of any of the lists, in order, complete *)
Definition row_ok (ls : list (list A)) (r : idx * list (option A)) : Prop :=
  snd r = map (find_key key (fst r)) ls /\ exists l x, In l ls /\ In x l /\ key x = fst r.

Lemma collate_loop_spec fuel : forall ls, Forall (sorted_by key) ls ->
  length (concat ls) < fuel ->
  sorted_by fst (collate_loop key fuel ls) /\
  Forall (row_ok ls) (collate_loop key fuel ls) /\
  (forall l x, In l ls -> In x l -> In (key x) (map fst (collate_loop key fuel ls))).
Proof.
  induction fuel as [|fuel IH]; intros ls HS Hf; [lia|]. cbn.
  destruct (least key (heads ls)) as [i|] eqn:EL.
  - pose proof (least_all ls i HS EL) as Hall.
    assert (HS' : Forall (sorted_by key) (map (drop_at key i) ls)).
    { apply Forall_forall. intros l Hl. apply in_map_iff in Hl as (l0 & <- & Hl0).
      apply drop_sorted. rewrite Forall_forall in HS. auto. }
    pose proof (drop_length i ls EL) as Hlen.
    destruct (IH (map (drop_at key i) ls) HS') as (I1 & I2 & I3); [lia|].
    rewrite Forall_forall in HS.
    assert (Hrow : forall r, In r (collate_loop key fuel (map (drop_at key i) ls)) ->
       idx_lt i (fst r) /\ row_ok ls r).
    { intros r Hr. rewrite Forall_forall in I2. destruct (I2 r Hr) as [Hr1 (l & x & Hl & Hx & Ex)].
      apply in_map_iff in Hl as (l0 & <- & Hl0).
      apply drop_in in Hx; [|now apply HS|intros; eapply Hall; eauto]. destruct Hx as [Hx Hlt].
      rewrite Ex in Hlt. split; [assumption|]. split; [|exists l0, x; auto].
      rewrite Hr1, map_map. apply map_ext_in. intros l Hl. apply drop_find; auto.
      intros; eapply Hall; eauto. }
    split; [|split].
    + apply sorted_cons; [assumption|]. intros r Hr. cbn. now apply Hrow.
    + constructor.
      * split; cbn.
        -- apply map_ext_in. intros l Hl. apply take_find; auto. intros; eapply Hall; eauto.
        -- destruct (least_some _ _ EL) as [(x & Hx & Ex) _]. apply heads_in in Hx as [l' Hl].
           exists (x :: l'), x. cbn. auto.
      * apply Forall_forall. intros r Hr. now apply Hrow.
    + intros l x Hl Hx. destruct (Hall l x Hl Hx) as [E|Hlt]; [left; auto|]. right.
      apply (I3 (drop_at key i l) x).
      * now apply in_map.
      * apply drop_in; auto. intros; eapply Hall; eauto.
  - pose proof (least_none _ EL) as Hn.
    split; [constructor|]. split; [constructor|].
    intros l x Hl Hx. destruct l as [|y l]; [destruct Hx|].
    assert (In (Some y) (heads ls)) as Hy by (apply heads_in; eauto).
    apply Hn in Hy. discriminate.
Qed.

Lemma collate_spec ls : Forall (sorted_by key) ls ->
  sorted_by fst (collate key ls) /\
  Forall (row_ok ls) (collate key ls) /\
  (forall l x, In l ls -> In x l -> In (key x) (map fst (collate key ls))).
Proof. intros H. apply collate_loop_spec; [assumption|lia]. Qed.
End CN.
