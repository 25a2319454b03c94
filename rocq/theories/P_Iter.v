(** * C14, C15: collation of listings, processing of trees *)
From Coq Require Import List Bool NArith Ascii Lia Sorting.Sorted.
From Verif Require Import Base L_Base M_Iter L_Iter L_Tree.
Import List ListNotations.

(** ** Specification *)

(** Order of paths: like words in a dictionary, component by component, the
    letters being the bytes 0..255. *)
Inductive bytes_before : bytes -> bytes -> Prop :=
| BB_nil b y : bytes_before [] (b :: y)
| BB_lt a b x y : (N_of_ascii a < N_of_ascii b)%N -> bytes_before (a :: x) (b :: y)
| BB_eq a x y : bytes_before x y -> bytes_before (a :: x) (a :: y).

Inductive before : idx -> idx -> Prop :=
| B_nil b y : before [] (b :: y)
| B_lt a b x y : bytes_before a b -> before (a :: x) (b :: y)
| B_eq a x y : before x y -> before (a :: x) (a :: y).

Definition listing {A} (key : A -> idx) (l : list A) : Prop :=
  StronglySorted (fun x y => before (key x) (key y)) l.

(** [i] is [d] or lies below it *)
Definition inside (d i : idx) : Prop := exists r, i = d ++ r.

Lemma bytes_before_lt x y : bytes_before x y <-> bytes_cmp x y = Lt.
Proof.
  split.
  - unfold bytes_cmp. induction 1 as [|a b x y H|a x y H IH].
    + reflexivity.
    + cbn [lex_cmp]. unfold byte_cmp. rewrite (proj2 (N.compare_lt_iff _ _) H). reflexivity.
    + cbn [lex_cmp]. rewrite (proj2 (gc_eq _ byte_good a a) eq_refl). exact IH.
  - revert y. induction x as [|a x IH]; intros [|b y]; cbn; try discriminate; [constructor|].
    destruct (byte_cmp a b) eqn:E; try discriminate.
    + apply (gc_eq _ byte_good) in E. subst. intros H. apply BB_eq. auto.
    + intros _. apply BB_lt. now apply N.compare_lt_iff.
Qed.
Lemma before_lt x y : before x y <-> idx_lt x y.
Proof.
  unfold idx_lt. split.
  - unfold idx_cmp. induction 1 as [|a b x y H|a x y H IH].
    + reflexivity.
    + cbn [lex_cmp]. apply bytes_before_lt in H. now rewrite H.
    + cbn [lex_cmp]. rewrite (proj2 (gc_eq _ bytes_good a a) eq_refl). exact IH.
  - revert y. induction x as [|a x IH]; intros [|b y]; cbn; try discriminate; [constructor|].
    destruct (bytes_cmp a b) eqn:E; try discriminate.
    + apply (gc_eq _ bytes_good) in E. subst. intros H. apply B_eq. auto.
    + intros _. apply B_lt. now apply bytes_before_lt.
Qed.
Lemma ss_weaken {T} (R S : T -> T -> Prop) l : (forall x y, R x y -> S x y) -> StronglySorted R l -> StronglySorted S l.
Proof. intros H. induction 1 as [|x l S0 IH F]; constructor; [assumption|]. eapply Forall_impl; [|exact F]. cbn. auto. Qed.
Lemma listing_sorted {A} (key : A -> idx) l : listing key l <-> sorted_by key l.
Proof. split; apply ss_weaken; intros; now apply before_lt. Qed.

(** the order is total and strict *)
Theorem C14_order_total : forall x y : idx,
  (before x y \/ x = y \/ before y x) /\ ~ (before x y /\ before y x) /\ ~ before x x.
Proof.
  intros. rewrite !before_lt. split; [apply idx_trichotomy|]. split; [|apply idx_lt_irrefl].
  intros [H1 H2]. eapply idx_lt_irrefl, idx_lt_trans; eauto.
Qed.

(** ** C14 *)

(** Each path of either listing appears exactly once, in order, paired with the
    entry of the same path in the other listing, or nothing if there is none. *)
Theorem C14_collate_two :
  forall (A B : Type) (keyA : A -> idx) (keyB : B -> idx) l1 l2,
  listing keyA l1 -> listing keyB l2 ->
  let result := collate2 keyA keyB l1 l2 in
  (* no path twice, in order; a pair has one path *)
  StronglySorted (fun p q =>
    forall i j, (exists x, fst p = Some x /\ keyA x = i) \/ (exists y, snd p = Some y /\ keyB y = i) ->
                (exists x, fst q = Some x /\ keyA x = j) \/ (exists y, snd q = Some y /\ keyB y = j) ->
                before i j) result /\
  (forall p, In p result -> p <> (None, None)) /\
  (* exact matches *)
  (forall x y, In (Some x, Some y) result -> keyA x = keyB y) /\
  (forall x, In x l1 <-> exists o, In (Some x, o) result) /\
  (forall y, In y l2 <-> exists o, In (o, Some y) result) /\
  (forall x y, In x l1 -> In y l2 -> keyA x = keyB y -> In (Some x, Some y) result).
Proof.
  intros A B keyA keyB l1 l2 L1 L2 result. apply listing_sorted in L1, L2.
  assert (Hk : forall p i, In p result ->
     (exists x, fst p = Some x /\ keyA x = i) \/ (exists y, snd p = Some y /\ keyB y = i) ->
     pair_key keyA keyB p = i).
  { intros p i Hp H. apply collate2_sound in Hp. destruct p as [[x|] [y|]]; cbn in *.
    - destruct Hp as (_ & _ & E). destruct H as [(? & [= <-] & <-)|(? & [= <-] & <-)]; auto.
    - destruct H as [(? & [= <-] & <-)|(? & [=] & _)]; auto.
    - destruct H as [(? & [=] & _)|(? & [= <-] & <-)]; auto.
    - destruct Hp. }
  split; [|split; [|split; [|split; [|split]]]].
  - pose proof (collate2_sorted keyA keyB l1 l2 L1 L2) as S. fold result in S.
    clearbody result. induction S as [|p l S IH F]; constructor.
    + apply IH. intros q i Hq. apply Hk. now right.
    + apply Forall_forall. intros q Hq i j Hi Hj.
      apply Hk in Hi; [|now left]. apply Hk in Hj; [|now right]. subst i j.
      rewrite Forall_forall in F. apply before_lt. auto.
  - intros p Hp ->. now apply collate2_sound in Hp.
  - intros x y H. apply collate2_sound in H. tauto.
  - intros x. split.
    + intros Hx. destruct (collate2_complete_l keyA keyB l1 l2 x L1 L2 Hx) as [(y & _ & _ & H)|[_ H]]; eauto.
    + intros [[y|] H]; apply collate2_sound in H; tauto.
  - intros y. split.
    + intros Hy. destruct (collate2_complete_r keyA keyB l1 l2 y L1 L2 Hy) as [(x & _ & _ & H)|[_ H]]; eauto.
    + intros [[x|] H]; apply collate2_sound in H; tauto.
  - intros x y Hx Hy E. destruct (collate2_complete_l keyA keyB l1 l2 x L1 L2 Hx) as [(z & Hz & Ez & H)|[Hn _]].
    + assert (z = y) as ->; [|assumption].
      pose proof (find_key_in keyB l2 z L2 Hz) as F1. pose proof (find_key_in keyB l2 y L2 Hy) as F2.
      rewrite Ez, E, F2 in F1. congruence.
    + exfalso. apply (Hn y Hy). auto.
Qed.

(** The same for any number of listings: one row per path, in order, with the
    entry of each listing or nothing. *)
Theorem C14_collate_many :
  forall (A : Type) (key : A -> idx) (ls : list (list A)),
  Forall (listing key) ls ->
  let rows := collate key ls in
  StronglySorted (fun r s => before (fst r) (fst s)) rows /\
  (forall i, In i (map fst rows) <-> exists l x, In l ls /\ In x l /\ key x = i) /\
  (forall i row, In (i, row) rows ->
     length row = length ls /\
     forall n l, nth_error ls n = Some l ->
       (exists x, nth_error row n = Some (Some x) /\ In x l /\ key x = i) \/
       (nth_error row n = Some None /\ forall x, In x l -> key x <> i)).
Proof.
  intros A key ls HL rows.
  assert (HS : Forall (sorted_by key) ls).
  { eapply Forall_impl; [|exact HL]. intros l. now apply listing_sorted. }
  destruct (collate_spec key ls HS) as (H1 & H2 & H3). fold rows in H1, H2, H3.
  rewrite Forall_forall in H2. split; [|split].
  - revert H1. apply ss_weaken. intros. now apply before_lt.
  - intros i. split.
    + intros H. apply in_map_iff in H as (r & <- & Hr). destruct (H2 r Hr) as [_ H]. exact H.
    + intros (l & x & Hl & Hx & <-). eauto.
  - intros i row Hr. destruct (H2 _ Hr) as [Hrow _]. cbn in Hrow. subst row.
    split; [apply map_length|]. intros n l Hn. rewrite nth_error_map, Hn. cbn.
    destruct (find_key key i l) as [x|] eqn:E.
    + left. exists x. apply find_key_some in E. tauto.
    + right. split; [reflexivity|]. now apply find_key_none.
Qed.

(** ** C15 *)

(** A listing starting with a directory [root] and going on with paths below it
    is processed without error: [trace] is the sequence of calls. *)
Definition tree_listing {A} (key : A -> idx) (root : A) (l : list A) : Prop :=
  listing key (root :: l) /\ forall x, In x l -> inside (key root) (key x).

(** Every entry is started resp. processed exactly once, in the order of the
    listing. *)
Theorem C15_each_entry_once_in_order :
  forall (A : Type) (key : A -> idx) (fast : A -> bool) root l,
  fast root = false -> tree_listing key root l ->
  exists trace, itr_run key fast (root :: l) itr_init = Some trace /\
    filter (fun e => match e with End _ => false | _ => true end) trace =
    map (fun x => if fast x then Fast x else Start x) (root :: l).
Proof.
  intros A key fast root l Hf [HL Hin]. apply listing_sorted in HL.
  rewrite (run_tree key fast root l Hf HL Hin). eexists. split; [reflexivity|].
  cbn. rewrite Hf. f_equal. apply (full_order key fast l [key root]).
Qed.

(** Each directory is opened and closed exactly once; between the two only
    entries below it are processed (and directories below it closed), and
    nothing below it before or after. *)
Theorem C15_directory_closed_once_after_content :
  forall (A : Type) (key : A -> idx) (fast : A -> bool) root l,
  fast root = false -> tree_listing key root l ->
  forall d, In d (root :: l) -> fast d = false ->
  exists before_ inner after,
    itr_run key fast (root :: l) itr_init =
      Some (before_ ++ Start d :: inner ++ End (key d) :: after) /\
    (forall e, In e before_ -> ~ inside (key d) (ev_idx key e)) /\
    (forall e, In e inner -> inside (key d) (ev_idx key e) /\ key d <> ev_idx key e) /\
    (forall e, In e after -> ~ inside (key d) (ev_idx key e)).
Proof.
  intros A key fast root l Hf [HL Hin] d Hd Hfd. apply listing_sorted in HL.
  rewrite (run_tree key fast root l Hf HL Hin).
  apply sorted_inv in HL as [HS F].
  assert (HC : chain_st [key root]) by constructor.
  assert (Hlt : forall x b, In x l -> In b [key root] -> idx_lt b (key x)).
  { intros x b Hx [<-|[]]. auto. }
  destruct Hd as [<-|Hd].
  - destruct (full_closes key fast l [key root] (key root) HC HS Hlt (or_introl eq_refl)) as (t2 & t3 & E & T2 & T3).
    exists [], t2, t3. rewrite E. repeat split; auto; try (intros ? []); apply T2; auto.
  - destruct (full_dir key fast l [key root] d HC HS Hlt Hd Hfd) as (t1 & t2 & t3 & E & T1 & T2 & T3).
    exists (Start root :: t1), t2, t3. rewrite E. repeat split; auto; try apply T2; auto.
    intros e [<-|He]; auto. cbn. intros HP.
    specialize (F d Hd). destruct (prefix_le _ _ HP) as [E2|L].
    + rewrite E2 in F. now apply idx_lt_irrefl in F.
    + eapply idx_lt_irrefl, idx_lt_trans; eauto.
Qed.

(** Wrongly ordered input is rejected: if the processing of a sequence of
    entries below [root] succeeds, no entry comes before an earlier one. *)
Theorem C15_order_enforced :
  forall (A : Type) (key : A -> idx) (fast : A -> bool) root l trace,
  (forall x, In x l -> inside (key root) (key x)) ->
  itr_run key fast (root :: l) itr_init = Some trace ->
  StronglySorted (fun x y => ~ before (key y) (key x)) (root :: l).
Proof.
  intros A key fast root l trace Hin Hrun.
  assert (HB : forall l s last, (forall x, In x l -> inside (key root) (key x)) ->
     st_index s = Some last -> (exists bs0, branches s = bs0 ++ [key root]) ->
     itr_run key fast l s <> None ->
     StronglySorted (fun x y => ~ before (key y) (key x)) l /\
     forall x, In x l -> ~ idx_lt (key x) last).
  { clear l trace Hin Hrun. induction l as [|x l IH]; intros s last Hin Hs [b0 Hb] Hr.
    { split; [constructor|intros ? []]. }
    cbn [itr_run] in Hr. unfold itr_call in Hr. rewrite Hs in Hr.
    assert (HF : forall b1, exists ev b2, finish_branches (A := A) (key x) (b1 ++ [key root]) = (ev, b2 ++ [key root])).
    { induction b1 as [|b b1 IHb]; cbn.
      - destruct (Hin x (or_introl eq_refl)) as [r Er].
        assert (is_prefix (key root) (key x) = true) as ->.
        { unfold is_prefix. rewrite Er, firstn_app, Nat.sub_diag, firstn_all, app_nil_r. now apply idx_eqb_eq. }
        exists [], []. reflexivity.
      - destruct (is_prefix b (key x)).
        + exists [], (b :: b1). reflexivity.
        + destruct IHb as (ev & b2 & E). rewrite E. eauto. }
    assert (GO : forall s', st_index s' = Some (key x) -> (exists b1, branches s' = b1 ++ [key root]) ->
       itr_run key fast l s' <> None -> ~ idx_lt (key x) last ->
       StronglySorted (fun x y => ~ before (key y) (key x)) (x :: l) /\
       forall y, In y (x :: l) -> ~ idx_lt (key y) last).
    { intros s' Hs' Hb' Hr' Hx.
      destruct (IH s' (key x) (fun y Hy => Hin y (or_intror Hy)) Hs' Hb' Hr') as [S F].
      split.
      - constructor; [assumption|]. apply Forall_forall. intros y Hy. rewrite before_lt. auto.
      - intros y [<-|Hy]; auto. intros Hlt. apply (F y Hy).
        destruct (idx_trichotomy (key x) last) as [H|[H|H]]; [tauto|now rewrite H|eapply idx_lt_trans; eauto]. }
    destruct (idx_cmp (key x) last) eqn:E; [| now destruct Hr | ].
    - apply (GO (mk_itr (Some (key x)) (branches s) (root_fast s)) eq_refl); cbn; [eauto| |unfold idx_lt; congruence].
      destruct (itr_run key fast l _); congruence.
    - rewrite Hb in Hr. destruct (b0 ++ [key root]) eqn:Eb; [now destruct b0|]. rewrite <- Eb in Hr. clear Eb.
      destruct (HF b0) as (ev & b2 & Ef). rewrite Ef in Hr.
      destruct (b2 ++ [key root]) eqn:Eb2; [now destruct b2|]. rewrite <- Eb2 in Hr. clear Eb2.
      destruct (fast x).
      + apply (GO (mk_itr (Some (key x)) (b2 ++ [key root]) (root_fast s)) eq_refl); cbn; [eauto| |unfold idx_lt; congruence].
        destruct (itr_run key fast l _); congruence.
      + apply (GO (mk_itr (Some (key x)) (key x :: b2 ++ [key root]) (root_fast s)) eq_refl); cbn; [exists (key x :: b2); reflexivity| |unfold idx_lt; congruence].
        destruct (itr_run key fast l _); congruence. }
  cbn [itr_run] in Hrun. unfold itr_call in Hrun. cbn [st_index itr_init] in Hrun.
  assert (HH : exists s', st_index s' = Some (key root) /\ branches s' = [key root] /\ itr_run key fast l s' <> None).
  { destruct (fast root).
    - exists (mk_itr (Some (key root)) [key root] true). repeat split. intros E. now rewrite E in Hrun.
    - exists (mk_itr (Some (key root)) [key root] false). repeat split. intros E. now rewrite E in Hrun. }
  destruct HH as (s' & H1 & H2 & H3).
  destruct (HB l s' (key root) Hin H1) as [S F]; [exists []; rewrite H2; reflexivity|assumption|].
  constructor; [assumption|]. apply Forall_forall. intros y Hy. rewrite before_lt. auto.
Qed.

(** ** FillInIter: the directories leading to each entry *)
Theorem C15_fill_in_complete :
  forall (A : Type) (key : A -> idx) (l : list A),
  listing key l ->
  let out := fill_in key l in
  let path (e : A + idx) := match e with inl x => key x | inr i => i end in
  (* the entries themselves, unchanged and in order *)
  flat_map (fun e => match e with inl x => [x] | inr _ => [] end) out = l /\
  (* strictly in order, so nothing twice and directories before their content *)
  StronglySorted (fun a b => before (path a) (path b)) out /\
  (* all directories on the way are there, and nothing else *)
  (forall e d, In e out -> inside d (path e) -> In d (map path out)) /\
  (forall i, In (inr i) out -> exists x, In x l /\ inside i (key x) /\ i <> key x).
Proof.
  intros A key l HL out path. apply listing_sorted in HL. split; [apply fill_in_elems|].
  split; [|split].
  - pose proof (fill_in_sorted key l HL) as H. revert H. apply ss_weaken.
    intros a b H. apply before_lt. exact H.
  - intros e d He Hd. exact (fill_in_ancestors key l e d He Hd).
  - intros i Hi. exact (fill_in_only key l i Hi).
Qed.

(** ** Examples *)
Definition ex_tree : list (idx * bool) :=
  [([], false); ([bs "a"], false); ([bs "a"; bs "x"], true); ([bs "a"; bs "y"], false);
   ([bs "a-b"], true); ([bs "b"], false); ([bs "b"; bs "q"], true)].
Lemma sorted_dec {T} (R : T -> T -> Prop) (f : T -> T -> bool) l :
  (forall x y, f x y = true -> R x y) ->
  (fix chk l := match l with [] => true | x :: l' => forallb (f x) l' && chk l' end) l = true ->
  StronglySorted R l.
Proof.
  intros H. induction l as [|x l IH]; intros E; constructor; apply andb_true_iff in E as [E1 E2]; auto.
  apply Forall_forall. intros y Hy. rewrite forallb_forall in E1. auto.
Qed.
Example ex_tree_ok : tree_listing fst (hd ([], false) ex_tree) (tl ex_tree).
Proof.
  split.
  - apply sorted_dec with (f := fun x y => idx_ltb (fst x) (fst y)); [|reflexivity].
    intros x y H. now apply before_lt, idx_ltb_lt.
  - intros x _. exists (fst x). reflexivity.
Qed.
Example ex_tree_trace : itr_run fst snd ex_tree itr_init = Some
  [Start ([], false); Start ([bs "a"], false); Fast ([bs "a"; bs "x"], true);
   Start ([bs "a"; bs "y"], false); End [bs "a"; bs "y"]; End [bs "a"];
   Fast ([bs "a-b"], true); Start ([bs "b"], false); Fast ([bs "b"; bs "q"], true);
   End [bs "b"]; End []].
Proof. reflexivity. Qed.
Example ex_bad_order : itr_run fst snd [([], false); ([bs "b"], true); ([bs "a"], true)] itr_init = None.
Proof. reflexivity. Qed.
Example ex_fill : fill_in (fun x => x) [[bs "a"; bs "x"; bs "u"]; [bs "a"; bs "z"]; [bs "b"; bs "v"]] =
  [inr []; inr [bs "a"]; inr [bs "a"; bs "x"]; inl [bs "a"; bs "x"; bs "u"]; inl [bs "a"; bs "z"];
   inr [bs "b"]; inl [bs "b"; bs "v"]].
Proof. reflexivity. Qed.
Example ex_collate : collate2 (fun x : idx => x) (fun x : idx => x)
   [[bs "a"]; [bs "c"]] [[bs "a"]; [bs "a"; bs "b"]; [bs "d"]] =
  [(Some [bs "a"], Some [bs "a"]); (None, Some [bs "a"; bs "b"]); (Some [bs "c"], None); (None, Some [bs "d"])].
Proof. reflexivity. Qed.
Example ex_collate_n : collate (fun x : idx => x)
   [[[bs "a"]; [bs "c"]]; [[bs "a"]; [bs "b"]]; [[bs "b"]]] =
  [([bs "a"], [Some [bs "a"]; Some [bs "a"]; None]); ([bs "b"], [None; Some [bs "b"]; Some [bs "b"]]);
   ([bs "c"], [Some [bs "c"]; None; None])].
Proof. reflexivity. Qed.

Print Assumptions C14_order_total.
Print Assumptions C14_collate_two.
Print Assumptions C14_collate_many.
Print Assumptions C15_each_entry_once_in_order.
Print Assumptions C15_directory_closed_once_after_content.
Print Assumptions C15_order_enforced.
Print Assumptions C15_fill_in_complete.
