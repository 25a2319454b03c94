(** * C71: What is found out about file systems, and what becomes of names *)
From Coq Require Import List NArith Bool Ascii String Lia FinFun.
From Verif Require Import Base L_Base M_Quoting L_Quoting P_Quoting P_QuotingFs M_Detect S_Detect.
Import List ListNotations.
Local Open Scope N_scope.

(** ** By writing *)
Definition right_answers (f : fs) : found :=
  mk_found (f_ext f) (f_win f) (match f_case f with Exact => true | _ => false end)
    (f_chown f) (f_link f) (f_ea f && f_ea_same f) (f_high_file f) (f_fork f) (f_high_file f) (f_sym f)
    (f_dev f) (match f_end f with Keep => false | _ => true end).
Lemma tests_right f : usual f -> exists d, tests f [] = Ok (right_answers f) d.
Proof.
  intros U. destruct f as [cs en ex wi de ch li ea eas hf hd fo sy].
  destruct U as [U|U]; cbn in U; subst cs;
  destruct en, ex, wi, de, ea, hf; eexists; vm_compute; reflexivity.
Qed.

Lemma lower_digit c : is_digit c = true -> lower c = c.
Proof. destruct c as [[] [] [] [] [] [] [] []]; vm_compute; try reflexivity; discriminate. Qed.
Lemma lower_digits s : forallb is_digit s = true -> map lower s = s.
Proof. induction s as [|c s IH]; [reflexivity|]. cbn. rewrite andb_true_iff. intros [H1 H2]. now rewrite lower_digit, IH. Qed.
Lemma blank_digit c : is_digit c = true -> blank c = false.
Proof. destruct c as [[] [] [] [] [] [] [] []]; vm_compute; try reflexivity; discriminate. Qed.
Lemma strip_not_blank n : ends_blank n = false -> strip_end n = n.
Proof.
  unfold ends_blank, strip_end. destruct (rev n) as [|c r] eqn:E; intros H.
  - cbn. apply (f_equal (@rev ascii)) in E. now rewrite rev_involutive in E.
  - cbn [drop_blank]. rewrite H. rewrite <- E. apply rev_involutive.
Qed.
Lemma rev_last_digit s : s <> [] -> forallb is_digit s = true -> forall p, ends_blank (p ++ s) = false.
Proof.
  intros N H p. unfold ends_blank. rewrite rev_app_distr. destruct (rev s) as [|c r] eqn:E.
  - apply (f_equal (@rev ascii)) in E. rewrite rev_involutive in E. contradiction.
  - cbn. apply blank_digit. rewrite forallb_forall in H. apply H. apply in_rev. rewrite E. now left.
Qed.
Lemma temp_ends j : ends_blank (temp_name j) = false.
Proof. apply rev_last_digit; [apply dec_nonempty|apply dec_digits]. Qed.
Lemma temp_shown f j : shown f (temp_name j) = temp_name j.
Proof. unfold shown. destruct (f_end f); try reflexivity. apply strip_not_blank, temp_ends. Qed.
Lemma temp_key f j : usual f -> key f (temp_name j) = temp_name j.
Proof.
  intros U. unfold key. rewrite temp_shown. destruct U as [-> | ->]; [reflexivity|]. cbn [fold_name]. unfold temp_name.
  rewrite map_app, (lower_digits (dec j)) by apply dec_digits. reflexivity.
Qed.
Lemma temp_device j : is_device (temp_name j) = false.
Proof. reflexivity. Qed.
Lemma temp_inj i j : temp_name i = temp_name j -> i = j.
Proof. intros H. apply app_inv_head in H. rewrite <- (dval_dec i), <- (dval_dec j). now rewrite H. Qed.
Lemma temp_takes f j : takes f (temp_name j) = true.
Proof.
  unfold takes. rewrite temp_shown, temp_ends, temp_device, andb_false_r.
  assert (C : forallb (char_ok f) (temp_name j) = true).
  { unfold temp_name. rewrite forallb_app. apply andb_true_iff. split.
    - destruct f as [cs en [] [] de ch li ea eas hf hd fo sy]; vm_compute; reflexivity.
    - apply forallb_forall. intros c Hc. pose proof (dec_digits j) as D. rewrite forallb_forall in D. specialize (D c Hc).
      unfold char_ok. destruct (f_ext f), (f_win f); destruct c as [[] [] [] [] [] [] [] []]; vm_compute in D; try discriminate D; vm_compute; reflexivity. }
  rewrite C. unfold temp_name. cbn [app bs empty negb andb]. now destruct (f_end f).
Qed.
Lemma exists_temp f dir j : usual f -> exists_in f dir (temp_name j) = true <-> In (temp_name j) (map (key f) dir).
Proof.
  intros U. unfold exists_in. rewrite temp_device, andb_false_r. cbn [orb]. rewrite existsb_exists. unfold same.
  rewrite temp_key by assumption. split.
  - intros (m & Hm & E). apply beq_bytes_true in E. rewrite E. now apply in_map.
  - intros H. apply in_map_iff in H. destruct H as (m & E & Hm). exists m. split; [exact Hm|]. rewrite E. apply beq_bytes_refl.
Qed.
(** The search for a free name ends: one more try than there are entries is enough. *)
Lemma get_temp_ends f dir : usual f -> forall fuel i,
  i + N.of_nat fuel <= 100000000 -> get_temp f fuel dir i = None ->
  forall k, (k < fuel)%nat -> In (temp_name (i + 1 + N.of_nat k)) (map (key f) dir).
Proof.
  intros U. induction fuel as [|fuel IH]; intros i Hi Hg k Hk; [lia|]. cbn [get_temp] in Hg.
  assert (NI : next_index i = i + 1) by (unfold next_index; destruct (N.ltb_spec 100000000 (i + 1)); [lia|reflexivity]).
  rewrite NI in Hg. destruct (exists_in f dir (temp_name (i + 1))) eqn:E; [|discriminate].
  destruct k as [|k].
  - apply (exists_temp f dir _ U) in E. now rewrite N.add_0_r.
  - replace (i + 1 + N.of_nat (S k)) with (i + 1 + 1 + N.of_nat k) by lia. apply IH; [lia|exact Hg|lia].
Qed.
Lemma get_temp_found f dir i : usual f -> i + N.of_nat (S (List.length dir)) <= 100000000 ->
  exists t j, get_temp f (S (List.length dir)) dir i = Some (t, j).
Proof.
  intros U Hi. destruct (get_temp f (S (List.length dir)) dir i) as [[t j]|] eqn:E; [eauto|exfalso].
  pose proof (get_temp_ends f dir U _ _ Hi E) as H.
  set (names := map (fun k => temp_name (i + 1 + N.of_nat k)) (seq 0 (S (List.length dir)))).
  assert (ND : NoDup names).
  { apply FinFun.Injective_map_NoDup; [|apply seq_NoDup]. intros a b Hab. apply temp_inj in Hab. lia. }
  assert (IN : incl names (map (key f) dir)).
  { intros x Hx. apply in_map_iff in Hx. destruct Hx as (k & <- & Hk). apply in_seq in Hk. apply H. lia. }
  pose proof (NoDup_incl_length ND IN) as L. unfold names in L. rewrite !map_length, seq_length in L. lia.
Qed.
Lemma get_temp_free f dir fuel : forall i t j, get_temp f fuel dir i = Some (t, j) -> exists_in f dir t = false /\ exists k, t = temp_name k.
Proof.
  induction fuel as [|fuel IH]; intros i t j H; [discriminate|]. cbn [get_temp] in H.
  destruct (exists_in f dir (temp_name (next_index i))) eqn:E; [eauto|]. injection H as <- _. eauto.
Qed.

(** ** Theorems *)
(** Whatever else is in the directory: the test finds out the truth and leaves everything
    as it was. *)
Theorem C71_found_out : forall f root i,
  usual f -> i + N.of_nat (S (List.length root)) <= 100000000 ->
  exists d, detect_rw f (S (List.length root)) root i = (Some d, map (fun n => (n, [])) root) /\
    d_ext d = f_ext f /\ d_win d = f_win f /\ (d_case d = true <-> f_case f = Exact) /\
    d_dos d = f_dev f /\ (d_trail d = false <-> f_end f = Keep) /\
    d_owner d = f_chown f /\ d_links d = f_link f /\ d_ea d = (f_ea f && f_ea_same f) /\ d_high d = f_high_file f.
Proof.
  intros f root i U Hi. exists (right_answers f). unfold detect_rw.
  destruct (get_temp_found f root i U Hi) as (t & j & E). rewrite E.
  destruct (get_temp_free _ _ _ _ _ _ E) as [_ (k & ->)]. rewrite temp_takes.
  destruct (tests_right f U) as (d & ->). split; [reflexivity|]. cbn.
  repeat split; auto; destruct U as [EU|EU]; rewrite ?EU; try discriminate; try reflexivity; destruct (f_end f); try discriminate; try reflexivity.
Qed.
Print Assumptions C71_found_out.

(** Whatever happens, on any file system: what was there stays, and only one thing may be
    left over, of a name which wasn't there. *)
Theorem C71_nothing_destroyed : forall f fuel root i d after,
  detect_rw f fuel root i = (d, after) ->
  after = map (fun n => (n, [])) root \/
  (d = None /\ exists t left_over, after = map (fun n => (n, [])) root ++ [(t, left_over)] /\ exists_in f root t = false).
Proof.
  intros f fuel root i d after H. unfold detect_rw in H.
  destruct (get_temp f fuel root i) as [[t j]|] eqn:E; [|injection H as <- <-; now left].
  destruct (takes f t); [|injection H as <- <-; now left].
  destruct (tests f []); injection H as <- <-; [now left|]. right. split; [reflexivity|].
  eexists. eexists. split; [reflexivity|]. now apply get_temp_free in E.
Qed.
Print Assumptions C71_nothing_destroyed.

(** ** By reading *)
Section NodeInd.
Variable P : node -> Prop.
Hypothesis HL : P Leaf.
Hypothesis HD : forall f l, Forall (fun x => P (snd x)) l -> P (Dir f l).
Fixpoint node_ind' (t : node) : P t :=
  match t with
  | Leaf => HL
  | Dir f l => HD f l ((fix go (l : list (bytes * node)) : Forall (fun x => P (snd x)) l :=
      match l with [] => Forall_nil _ | x :: r => Forall_cons _ (node_ind' (snd x)) (go r) end) l)
  end.
End NodeInd.

Definition look_in (f : fs) (l : list bytes) (rest : list (bytes * node)) : option (fs * list bytes * bytes) :=
  (fix look (rest : list (bytes * node)) :=
     match rest with
     | [] => None
     | (n, sub) :: r =>
         if negb (beq_bytes n (swapcase n)) then Some (f, l, n)
         else match find_letter sub with Some x => Some x | None => look r end
     end) rest.
Lemma look_cons f l n sub r : look_in f l ((n, sub) :: r) =
  if negb (beq_bytes n (swapcase n)) then Some (f, l, n) else match find_letter sub with Some x => Some x | None => look_in f l r end.
Proof. reflexivity. Qed.
Lemma find_letter_dir f l : find_letter (Dir f l) = look_in f (map fst l) l.
Proof. reflexivity. Qed.
Lemma find_letter_some t : forall f l' n, find_letter t = Some (f, l', n) ->
  exists l, inside t f l /\ l' = map fst l /\ In n l' /\ n <> swapcase n.
Proof.
  induction t as [|f0 l0 IH] using node_ind'; intros f l' n H; [discriminate|]. rewrite find_letter_dir in H.
  assert (G : forall rest, incl rest l0 -> look_in f0 (map fst l0) rest = Some (f, l', n) ->
     exists l, inside (Dir f0 l0) f l /\ l' = map fst l /\ In n l' /\ n <> swapcase n).
  { induction rest as [|[m sub] rest IHr]; intros Hi Hl; [discriminate|]. rewrite look_cons in Hl.
    destruct (beq_bytes m (swapcase m)) eqn:E; cbn [negb] in Hl.
    - destruct (find_letter sub) as [x|] eqn:F.
      + injection Hl as ->. rewrite Forall_forall in IH. assert (Hm : In (m, sub) l0) by (apply Hi; now left).
        destruct (IH (m, sub) Hm f l' n F) as (l & I & R). exists l. split; [|exact R]. eapply in_below; eassumption.
      + apply IHr; [|exact Hl]. intros x Hx. apply Hi. now right.
    - injection Hl as <- <- <-. exists l0. split; [constructor|]. split; [reflexivity|]. split.
      + apply (in_map fst l0 (m, sub)). apply Hi. now left.
      + intros E2. rewrite <- E2, beq_bytes_refl in E. discriminate. }
  exact (G l0 (incl_refl _) H).
Qed.
Lemma find_letter_none t : find_letter t = None -> forall f l, inside t f l -> forall n, In n (map fst l) -> n = swapcase n.
Proof.
  induction t as [|f0 l0 IH] using node_ind'; intros H f l I n Hn; [inversion I|]. rewrite find_letter_dir in H.
  assert (G : forall rest, look_in f0 (map fst l0) rest = None -> forall m sub, In (m, sub) rest -> m = swapcase m /\ find_letter sub = None).
  { induction rest as [|[m sub] rest IHr]; intros Hl m' sub' Hm; [destruct Hm|]. rewrite look_cons in Hl.
    destruct (beq_bytes m (swapcase m)) eqn:E; cbn [negb] in Hl; [|discriminate].
    destruct (find_letter sub) as [x|] eqn:F; [discriminate|]. destruct Hm as [[= <- <-]|Hm].
    - apply beq_bytes_true in E. split; [exact E|exact F].
    - now apply IHr. }
  inversion I; subst.
  - apply in_map_iff in Hn. destruct Hn as ([m sub] & <- & Hm). now apply (G _ H m sub).
  - rewrite Forall_forall in IH. eapply (IH (n0, sub)); cbn [snd]; try eassumption. now apply (G _ H n0 sub).
Qed.

Lemma swap_letter c : swap_char c = c <-> ~ is_letter c.
Proof.
  unfold is_letter. destruct c as [[] [] [] [] [] [] [] []]; vm_compute; split; intros H; try discriminate H; try reflexivity; try (intros [[? ?]|[? ?]]; congruence);
  exfalso; apply H; first [left; split; congruence|right; split; congruence].
Qed.
Lemma lower_swap c : lower (swap_char c) = lower c.
Proof. destruct c as [[] [] [] [] [] [] [] []]; vm_compute; reflexivity. Qed.
Lemma lower_swapcase n : map lower (swapcase n) = map lower n.
Proof. unfold swapcase. rewrite map_map. apply map_ext. apply lower_swap. Qed.
Lemma blank_swap c : blank (swap_char c) = blank c.
Proof. destruct c as [[] [] [] [] [] [] [] []]; vm_compute; reflexivity. Qed.
Lemma dot_swap c : Ascii.eqb (swap_char c) (chr 46) = Ascii.eqb c (chr 46).
Proof. destruct c as [[] [] [] [] [] [] [] []]; vm_compute; reflexivity. Qed.
Lemma drop_swap s : drop_blank (map swap_char s) = map swap_char (drop_blank s).
Proof. induction s as [|c s IH]; [reflexivity|]. cbn. rewrite blank_swap. now destruct (blank c). Qed.
Lemma strip_swap n : strip_end (swapcase n) = swapcase (strip_end n).
Proof. unfold strip_end, swapcase. now rewrite <- map_rev, drop_swap, map_rev. Qed.
Lemma shown_swap f n : shown f n = n -> shown f (swapcase n) = swapcase n.
Proof. unfold shown. destruct (f_end f); try reflexivity. intros H. now rewrite strip_swap, H. Qed.
Lemma stem_swap n : map lower (stem (swapcase n)) = map lower (stem n).
Proof.
  induction n as [|c n IH]; [reflexivity|]. unfold swapcase in *. cbn [map stem]. rewrite dot_swap.
  destruct (Ascii.eqb c (chr 46)); [reflexivity|]. cbn [map]. now rewrite lower_swap, IH.
Qed.
Lemma device_swap n : is_device (swapcase n) = is_device n.
Proof. unfold is_device. now rewrite stem_swap. Qed.
Lemma swapcase_letter n : n <> swapcase n <-> exists c, In c n /\ is_letter c.
Proof.
  split.
  - induction n as [|c n IH]; intros H; [now elim H|].
    destruct (Ascii.ascii_dec (swap_char c) c) as [E|E].
    + destruct IH as (d & Hd & L).
      * intros E2. apply H. cbn. unfold swapcase in E2. now rewrite E, <- E2.
      * exists d. split; [now right|exact L].
    + exists c. split; [now left|]. destruct (swap_letter c) as [_ S2].
      destruct c as [[] [] [] [] [] [] [] []]; try (exfalso; apply E; reflexivity); unfold is_letter; vm_compute; first [left; split; congruence|right; split; congruence].
  - intros (c & Hc & L) E. induction n as [|d n IH]; [destruct Hc|]. cbn in E. injection E as E1 E2. destruct Hc as [->|Hc]; [|now apply IH].
    apply (swap_letter c); [now symmetry|exact L].
Qed.

(** Only by reading: it's found out that capitals aren't distinguished exactly if there's any
    name with a letter to see it. *)
Theorem C71_case_by_reading : forall s t, usual s -> source_on s t ->
  (detect_case_ro t = false <->
   f_case s = AsciiCase /\ exists f l n c, inside t f l /\ In n (map fst l) /\ In c n /\ is_letter c).
Proof.
  intros s t U (l0 & Ht & A). unfold detect_case_ro.
  destruct (find_letter t) as [[[f l'] n]|] eqn:F.
  - destruct (find_letter_some t f l' n F) as (l & I & -> & Hn & Nn). destruct (A f l I) as [-> (ND & TK & SM)].
    destruct (TK n Hn) as [Tn Sn].
    assert (LL : exists f l n c, inside t f l /\ In n (map fst l) /\ In c n /\ is_letter c).
    { apply swapcase_letter in Nn. destruct Nn as (c & Hc & L). now exists s, l, n, c. }
    assert (DV : f_dev s && is_device (swapcase n) = false).
    { rewrite device_swap. unfold takes in Tn. rewrite !andb_true_iff in Tn. destruct Tn as [_ Tn]. now apply negb_true_iff. }
    unfold exists_in. rewrite DV. cbn [orb].
    destruct (existsb (beq_bytes (swapcase n)) (map fst l)) eqn:E1.
    + apply existsb_exists in E1. destruct E1 as (m & Hm & E1). apply beq_bytes_true in E1. subst m.
      split; [discriminate|]. intros [C _]. exfalso. apply Nn. symmetry. apply SM; try assumption.
      unfold same, key. rewrite (shown_swap s n Sn), Sn, C. cbn [fold_name]. rewrite lower_swapcase. apply beq_bytes_refl.
    + destruct (existsb (same s (swapcase n)) (map fst l)) eqn:E2.
      * split; [intros _; split; [|exact LL]|reflexivity]. destruct U as [U|U]; [exfalso|exact U].
        apply existsb_exists in E2. destruct E2 as (m & Hm & E2). unfold same, key in E2. apply beq_bytes_true in E2.
        rewrite U in E2. cbn [fold_name] in E2. rewrite (shown_swap s n Sn), (proj2 (TK m Hm)) in E2. subst m.
        assert (existsb (beq_bytes (swapcase n)) (map fst l) = true); [|congruence]. apply existsb_exists. exists (swapcase n). split; [exact Hm|apply beq_bytes_refl].
      * split; [discriminate|]. intros [C _]. exfalso.
        assert (existsb (same s (swapcase n)) (map fst l) = true); [|congruence].
        apply existsb_exists. exists n. split; [exact Hn|]. unfold same, key. rewrite (shown_swap s n Sn), Sn, C. cbn [fold_name].
        rewrite lower_swapcase. apply beq_bytes_refl.
  - split; [discriminate|]. intros [_ (f & l & n & c & I & Hn & Hc & L)]. exfalso.
    assert (n = swapcase n) by (eapply find_letter_none; eassumption).
    assert (n <> swapcase n) by (apply swapcase_letter; eauto). contradiction.
Qed.
Print Assumptions C71_case_by_reading.

Lemma trailing_found f all : forall l, incl l all -> trailing_loop f all l = true ->
  exists n, In n l /\ ends_blank n = false /\ existsb (beq_bytes (n ++ [chr 46])) all = false /\ exists_in f all (n ++ [chr 46]) = true.
Proof.
  induction l as [|n l IH]; intros Hi H; [discriminate|]. cbn [trailing_loop] in H.
  destruct (ends_blank n) eqn:E1; [discriminate|]. destruct (existsb (beq_bytes (n ++ [chr 46])) all) eqn:E2; [discriminate|].
  destruct (exists_in f all (n ++ [chr 46])) eqn:E3.
  - exists n. split; [now left|auto].
  - destruct IH as (m & Hm & R); [intros x Hx; apply Hi; now right|exact H|]. exists m. split; [now right|exact R].
Qed.
Lemma stem_dot n : stem (n ++ [chr 46]) = stem n.
Proof. induction n as [|c n IH]; [reflexivity|]. cbn [app stem]. destruct (Ascii.eqb c (chr 46)); [reflexivity|]. now rewrite IH. Qed.
Lemma lower_dot c : lower c = chr 46 -> c = chr 46.
Proof. destruct c as [[] [] [] [] [] [] [] []]; vm_compute; intros H; try discriminate H; reflexivity. Qed.
Lemma top_listing s t : source_on s t -> exists l, t = Dir s l /\ listing_of s (map fst l).
Proof. intros (l & -> & A). exists l. split; [reflexivity|]. now apply (A s l (in_here s l)). Qed.
Lemma not_device s n : takes s n = true -> f_dev s && is_device n = false.
Proof. unfold takes. rewrite !andb_true_iff. intros [_ H]. now apply negb_true_iff. Qed.

(** Only by reading: if periods at the end of names are taken as lost, they are; unless a
    file system keeps them, doesn't distinguish capitals, and there is one. *)
Theorem C71_trailing_by_reading : forall s t, usual s -> source_on s t ->
  (f_case s = Exact \/ f_end s <> Keep \/ forall n m, In n (top t) -> n <> m ++ [chr 46]) ->
  detect_trailing_ro t = true -> f_end s = Strip.
Proof.
  intros s t U So Hyp H. destruct (top_listing s t So) as (l & -> & (ND & TK & SM)). cbn [detect_trailing_ro] in H. cbn [top] in Hyp.
  destruct (trailing_found _ _ _ (incl_refl _) H) as (n & Hn & Nb & NotIn & Ex). unfold exists_in in Ex.
  assert (DV : f_dev s && is_device (n ++ [chr 46]) = false).
  { unfold is_device. rewrite stem_dot. now apply not_device, TK. }
  rewrite DV in Ex. cbn [orb] in Ex. apply existsb_exists in Ex. destruct Ex as (m & Hm & E). unfold same, key in E. apply beq_bytes_true in E.
  rewrite (proj2 (TK m Hm)) in E. destruct (f_end s) eqn:FE; [|reflexivity|]; unfold shown in E; rewrite FE in E.
  all: destruct U as [U|U]; rewrite U in E; cbn [fold_name] in E;
    [subst m; exfalso; assert (existsb (beq_bytes (n ++ [chr 46])) (map fst l) = true);
      [apply existsb_exists; eexists; split; [exact Hm|apply beq_bytes_refl]|congruence]|].
  all: rewrite map_app in E; cbn [map] in E; destruct m as [|c m] using rev_ind; [destruct (map lower n); discriminate E|clear IHm];
    rewrite map_app in E; cbn [map] in E; apply app_inj_tail in E; destruct E as [_ E]; change (lower (chr 46)) with (chr 46) in E;
    symmetry in E; apply lower_dot in E; subst c; exfalso.
  - destruct Hyp as [Hyp|[Hyp|Hyp]]; [congruence|congruence|]. now apply (Hyp _ m Hm).
  - destruct (TK _ Hm) as [T _]. unfold takes in T. rewrite FE in T. rewrite !andb_true_iff in T. destruct T as [[_ T] _].
    unfold ends_blank in T. rewrite rev_app_distr in T. discriminate T.
Qed.
Print Assumptions C71_trailing_by_reading.

(** ** Names in the repository *)
(** a quoted name: each character as it is or as its code *)
Inductive units (cls : ascii -> bool) : bytes -> bytes -> Prop :=
| u_nil : units cls [] []
| u_plain c a q : c <> QUOTING_CHAR -> cls c = false -> units cls a q -> units cls (c :: a) (c :: q)
| u_code c a q : units cls a q -> units cls (c :: a) (quote_single c ++ q).
Lemma units_app cls a q b r : units cls a q -> units cls b r -> units cls (a ++ b) (q ++ r).
Proof. induction 1; intros H2; cbn [app]; [exact H2|constructor; auto|]. rewrite <- app_assoc. constructor. auto. Qed.
Lemma units_class cls s : units cls s (quote_class cls s).
Proof.
  induction s as [|c s IH]; [constructor|]. cbn [quote_class]. destruct (cls c) eqn:E; cbn [orb]; [now constructor|].
  destruct (Ascii.eqb_spec c QUOTING_CHAR); [now constructor|]. now constructor.
Qed.
Lemma units_trailing cls s : units cls s (escape_trailing (quote_class cls s)).
Proof.
  destruct (escape_trailing_cases cls s) as [-> |(t & c & -> & _ & _ & ->)]; [apply units_class|].
  apply units_app; [apply units_class|]. rewrite <- (app_nil_r (quote_single c)). repeat constructor.
Qed.
Lemma units_dos cls s q : units cls s q ->
  units cls s (if negb (dos_device q) then q else match q with c :: r => quote_single c ++ r | [] => q end).
Proof.
  intros H. destruct (dos_device q) eqn:E; cbn [negb]; [|exact H].
  destruct (dos_device_head q E) as (a & r & -> & Ha). apply lower_alpha in Ha. destruct Ha as [_ Hq].
  inversion H; subst; [now constructor|]. exfalso. apply Hq. symmetry. unfold quote_single in *. cbn [app] in *. congruence.
Qed.
Lemma units_quote cls edd ets s : units cls s (fs_quote cls edd ets s).
Proof.
  unfold fs_quote. destruct edd, ets; cbn [negb andb]; [apply units_dos, units_trailing|apply units_dos, units_class|apply units_trailing|apply units_class].
Qed.

(** reading the codes, bytes for bytes *)
Fixpoint raw (s : bytes) : bytes :=
  match s with
  | [] => []
  | c :: r =>
      if Ascii.eqb c QUOTING_CHAR then
        match r with
        | d1 :: d2 :: d3 :: r' => chr (dval [d1; d2; d3]) :: raw r'
        | _ => []
        end
      else c :: raw r
  end.
Lemma raw_code c q : raw (quote_single c ++ q) = c :: raw q.
Proof.
  unfold quote_single. destruct (dec_pad_3 (ord c)) as (d1 & d2 & d3 & E & H1 & H2 & H3 & Hv).
  { pose proof (ord_lt c). lia. }
  rewrite E. cbn [raw app]. rewrite Ascii.eqb_refl, Hv. now rewrite chr_ord.
Qed.
Lemma code_lower c : map lower (quote_single c) = quote_single c.
Proof. unfold quote_single. cbn [map]. rewrite lower_digits by apply dec_pad_digits. reflexivity. Qed.
Lemma lower_quoting c : c <> QUOTING_CHAR -> lower c <> QUOTING_CHAR.
Proof. intros N E. apply N. revert E. destruct c as [[] [] [] [] [] [] [] []]; vm_compute; intros E; try discriminate E; reflexivity. Qed.
Lemma raw_exact cls a q : units cls a q -> raw q = a.
Proof.
  induction 1 as [|c a q N C U IH|c a q U IH]; [reflexivity| |now rewrite raw_code, IH].
  cbn [raw]. apply Ascii.eqb_neq in N. now rewrite N, IH.
Qed.
Lemma raw_lower cls a q : units cls a q ->
  Forall2 (fun c c' => c' = c \/ (c' = lower c /\ cls c = false)) a (raw (map lower q)).
Proof.
  induction 1 as [|c a q N C U IH|c a q U IH]; [constructor| |].
  - cbn [map raw]. pose proof (lower_quoting c N) as NL. apply Ascii.eqb_neq in NL. rewrite NL. constructor; auto.
  - rewrite map_app, code_lower, raw_code. constructor; auto.
Qed.
Lemma lower_lower c : lower (lower c) = lower c.
Proof. destruct c as [[] [] [] [] [] [] [] []]; vm_compute; reflexivity. Qed.
Lemma raw_fold cls a q : units cls a q -> map lower (raw (map lower q)) = map lower a.
Proof.
  intros U. apply raw_lower in U. induction U as [|c c' x y [E|[E _]] F IH]; [reflexivity| |]; cbn [map]; rewrite E, IH, ?lower_lower; reflexivity.
Qed.
Lemma raw_capitals cls a q : (forall c, lower c <> c -> cls c = true) -> units cls a q -> raw (map lower q) = a.
Proof.
  intros HC U. apply raw_lower in U. induction U as [|c c' x y H F IH]; [reflexivity|]. rewrite IH. f_equal.
  destruct H as [-> |[-> H]]; [reflexivity|]. destruct (Ascii.ascii_dec (lower c) c) as [E|E]; [exact E|]. rewrite (HC c E) in H. discriminate.
Qed.
Lemma units_end cls a q : units cls a q -> ends_blank q = true -> ends_blank a = true.
Proof.
  assert (C : forall s c, s <> [] -> ends_blank (c :: s) = ends_blank s).
  { intros s c N. unfold ends_blank. cbn [rev]. destruct (rev s) eqn:E; [|reflexivity].
    apply (f_equal (@rev ascii)) in E. rewrite rev_involutive in E. contradiction. }
  induction 1 as [|c a q N Cc U IH|c a q U IH]; intros H; [discriminate| |].
  - destruct U.
    + exact H.
    + rewrite C by discriminate. apply IH. now rewrite C in H by discriminate.
    + rewrite C by discriminate. apply IH. rewrite C in H; [exact H|]. unfold quote_single. cbn [app]. discriminate.
  - destruct U as [|c' a' q' N Cc U|c' a' q' U].
    + exfalso. rewrite app_nil_r in H. unfold ends_blank in H. destruct (quote_single_last c) as (p & d & E & D).
      rewrite E, rev_app_distr in H. cbn in H. rewrite blank_digit in H; [discriminate|exact D].
    + rewrite C by discriminate. apply IH. revert H. unfold ends_blank. rewrite rev_app_distr. cbn [rev].
      destruct (rev q' ++ [c']) eqn:E; [destruct (rev q'); discriminate|]. intros H. exact H.
    + rewrite C by discriminate. apply IH. revert H. unfold ends_blank. rewrite rev_app_distr.
      destruct (rev (quote_single c' ++ q')) eqn:E; [|intros H; exact H].
      apply (f_equal (@rev ascii)) in E. rewrite rev_involutive in E. unfold quote_single in E. cbn in E. discriminate E.
Qed.
Lemma units_stem cls a q : units cls a q -> ~ In QUOTING_CHAR (stem q) -> stem a = stem q.
Proof.
  induction 1 as [|c a q N C U IH|c a q U IH]; intros H; [reflexivity| |].
  - cbn [stem] in *. destruct (Ascii.eqb c (chr 46)); [reflexivity|]. rewrite IH; [reflexivity|]. intros X. apply H. now right.
  - exfalso. apply H. unfold quote_single. cbn. now left.
Qed.
Lemma device_no_quoting q : is_device q = true -> ~ In QUOTING_CHAR (stem q).
Proof.
  unfold is_device. intros H I. apply existsb_exists in H. destruct H as (d & Hd & E). apply beq_bytes_true in E.
  apply (in_map lower) in I. rewrite E in I. change (lower QUOTING_CHAR) with QUOTING_CHAR in I.
  assert (F : forallb (fun d => negb (mem_byte QUOTING_CHAR d)) device_stems = true) by (vm_compute; reflexivity).
  rewrite forallb_forall in F. specialize (F d Hd). apply negb_true_iff in F. apply mem_byte_In in I. congruence.
Qed.
Lemma units_device cls a q : units cls a q -> is_device q = true -> is_device a = true.
Proof. intros U H. unfold is_device. rewrite (units_stem cls a q U) by now apply device_no_quoting. exact H. Qed.
Lemma stem_split n : n = stem n \/ exists ext, n = stem n ++ bs "." ++ ext.
Proof.
  induction n as [|c n IH]; [now left|]. cbn [stem]. destruct (Ascii.eqb_spec c (chr 46)) as [->|N]; [right; now exists n|].
  destruct IH as [E|(e & E)]; [left; congruence|right; exists e]. cbn [app]. now rewrite E at 1.
Qed.
Lemma is_device_device n : is_device n = true -> device n.
Proof.
  unfold is_device. intros H. apply existsb_exists in H. destruct H as (d & Hd & E). apply beq_bytes_true in E.
  exists (stem n). split; [|destruct (stem_split n); auto].
  change (In (map lower (stem n)) device_stems). now rewrite E.
Qed.
Lemma units_ne cls a q : units cls a q -> a <> [] -> q <> [].
Proof. destruct 1 as [| |c a q U]; intros N; [contradiction|discriminate|]. unfold quote_single. cbn [app]. discriminate. Qed.
Lemma ends_last n : ends_blank n = true -> last n (chr 0) = chr 32 \/ last n (chr 0) = chr 46.
Proof.
  destruct n as [|c n] using rev_ind; [discriminate|]. clear IHn. unfold ends_blank. rewrite rev_app_distr, last_last. cbn. unfold blank.
  destruct (Ascii.eqb_spec c (chr 32)); [auto|]. destruct (Ascii.eqb_spec c (chr 46)); [auto|discriminate].
Qed.

Lemma dos_by_reading s t : usual s -> source_on s t ->
  (forall n, In n (top t) -> map lower n <> bs "con") -> detect_dos_ro t = true -> f_dev s = true.
Proof.
  intros U So Hyp H. destruct (top_listing s t So) as (l & -> & (ND & TK & SM)). cbn [detect_dos_ro] in H. cbn [top] in Hyp.
  unfold exists_in in H. apply orb_true_iff in H. destruct H as [H|H]; [now apply andb_true_iff in H|exfalso].
  apply existsb_exists in H. destruct H as (m & Hm & E). unfold same, key in E. apply beq_bytes_true in E.
  rewrite (proj2 (TK m Hm)) in E. assert (shown s (bs "con") = bs "con") as SC by (unfold shown; destruct (f_end s); reflexivity).
  rewrite SC in E. apply (Hyp m Hm). destruct U as [U|U]; rewrite U in E; cbn [fold_name] in E; [now subst m|]. now rewrite <- E.
Qed.
Lemma blank_of_shown s n : f_end s = Strip -> shown s n = n -> ends_blank n = false.
Proof.
  intros FE H. unfold shown in H. rewrite FE in H. unfold strip_end in H. apply (f_equal (@rev ascii)) in H. rewrite rev_involutive in H.
  unfold ends_blank. destruct (rev n) as [|c r]; [reflexivity|]. cbn [drop_blank] in H. destruct (blank c) eqn:B; [exfalso|reflexivity].
  assert (L : forall x, (List.length (drop_blank x) <= List.length x)%nat).
  { induction x as [|y x IH]; [apply le_n|]. cbn [drop_blank]. destruct (blank y); cbn [List.length] in *; lia. }
  specialize (L r). rewrite H in L. cbn [List.length] in L. lia.
Qed.
Lemma taken_ne s n : takes s n = true -> shown s n = n -> n <> [].
Proof. intros T Hs ->. unfold takes in T. rewrite Hs in T. discriminate T. Qed.

(** *** No two files of a directory get the same name in a new repository, and each name is
    one the file system takes. *)
Theorem C71_no_collisions : forall s d t fuel root i dest after,
  usual s -> usual d -> source_on s t -> detect_rw d fuel root i = (Some dest, after) ->
  (f_case s = Exact \/ f_end s <> Keep \/ forall n m, In n (top t) -> n <> m ++ bs ".") ->
  (forall n, In n (top t) -> map lower n <> bs "con") ->
  (f_ext d = false \/ f_win d = true \/ (f_case s = Exact /\ f_case d = AsciiCase) \/ (f_end d = Keep /\ f_dev d = false)) ->
  forall f l a, inside t f l -> In a (map fst l) ->
    takes d (repo_name t dest a) = true /\
    forall b, In b (map fst l) -> same d (repo_name t dest a) (repo_name t dest b) = true -> a = b.
Proof.
  intros s d t fuel root i dest after Us Ud So Hd Htr Hcon Hq f l a I Ha.
  assert (Dest : dest = right_answers d).
  { unfold detect_rw in Hd. destruct (get_temp d fuel root i) as [[tn j]|]; [|discriminate]. destruct (takes d tn); [|discriminate].
    destruct (tests_right d Ud) as (dd & E). rewrite E in Hd. now injection Hd. }
  pose proof So as (l0 & Ht & A). destruct (A f l I) as [-> (ND & TK & SM)].
  pose proof (C71_case_by_reading s t Us So) as CS.
  pose proof (C71_trailing_by_reading s t Us So Htr) as TR.
  pose proof (dos_by_reading s t Us So Hcon) as DR.
  assert (FoldS : detect_case_ro t = false -> forall x y, In x (map fst l) -> In y (map fst l) -> map lower x = map lower y -> x = y).
  { intros C x y Hx Hy E. apply CS in C. destruct C as [C _]. apply SM; [assumption|assumption|].
    unfold same, key. rewrite C, (proj2 (TK x Hx)), (proj2 (TK y Hy)). cbn [fold_name]. rewrite E. apply beq_bytes_refl. }
  unfold repo_name. rewrite Dest. cbn [d_case d_ext d_win d_dos d_trail right_answers].
  set (dcs := match f_case d with Exact => true | _ => false end).
  destruct (ctq_from_fsas (detect_case_ro t) dcs (Some (f_ext d)) (f_win d)) as [cls|] eqn:Q.
  - set (edd := f_dev d && negb (detect_dos_ro t)). set (ets := (match f_end d with Keep => false | _ => true end) && negb (detect_trailing_ro t)).
    assert (NB : forall x, In x (map fst l) -> f_end d <> Keep -> ends_blank (fs_quote cls edd ets x) = false).
    { intros x Hx NK. destruct (ends_blank (fs_quote cls edd ets x)) eqn:B; [exfalso|reflexivity].
      destruct (detect_trailing_ro t) eqn:TT.
      - specialize (TR eq_refl). assert (B2 : ends_blank x = true) by (eapply units_end; [apply units_quote|exact B]).
        rewrite (blank_of_shown s x TR (proj2 (TK x Hx))) in B2. discriminate.
      - assert (ets = true) as ET by (unfold ets; destruct (f_end d); [contradiction|reflexivity|reflexivity]).
        rewrite ET in B. apply ends_last in B. destruct (C10_no_trailing_space_or_period cls edd x (chr 0)) as [N1 N2]; [discriminate|discriminate|].
        destruct B; contradiction. }
    assert (SH : forall x, In x (map fst l) -> shown d (fs_quote cls edd ets x) = fs_quote cls edd ets x).
    { intros x Hx. unfold shown. destruct (f_end d) eqn:FE; try reflexivity. apply strip_not_blank, NB; [exact Hx|discriminate]. }
    split.
    + unfold takes. rewrite (SH a Ha). destruct (TK a Ha) as [Ta Sa]. rewrite !andb_true_iff. repeat split.
      * pose proof (units_ne cls a _ (units_quote cls edd ets a) (taken_ne s a Ta Sa)) as NE. now destruct (fs_quote cls edd ets a).
      * apply forallb_forall. intros c Hc. unfold char_ok. apply andb_true_iff. split.
        -- destruct (f_ext d) eqn:FX; [reflexivity|]. cbn [orb]. destruct (C10_plain_names _ _ _ _ _ _ _ _ Q Hc) as [P1 P2].
           apply andb_true_iff. split; [apply N.leb_le|apply N.ltb_lt]; assumption.
        -- destruct (f_win d) eqn:FW; [|reflexivity]. cbn [negb orb]. destruct (C10_windows_characters _ _ _ _ _ _ _ _ Q Hc) as [W1 W2].
           apply andb_true_iff. split; [|apply N.leb_le, W2; discriminate].
           apply negb_true_iff. destruct (mem_byte c win_refused) eqn:M; [|reflexivity]. apply mem_byte_In in M. contradiction.
      * destruct (f_end d) eqn:FE; try reflexivity. rewrite NB; [reflexivity|exact Ha|discriminate].
      * apply negb_true_iff. destruct (f_dev d) eqn:FD; [|reflexivity]. cbn [andb].
        destruct (is_device (fs_quote cls edd ets a)) eqn:ID; [exfalso|reflexivity].
        destruct (detect_dos_ro t) eqn:DT.
        -- specialize (DR eq_refl). apply (units_device cls a) in ID; [|apply units_quote].
           pose proof (not_device s a Ta) as ND2. rewrite DR, ID in ND2. discriminate.
        -- assert (edd = true) as ED by reflexivity. rewrite ED in ID. apply is_device_device in ID.
           now apply (C10_device_names cls ets a).
    + intros b Hb E. unfold same, key in E. apply beq_bytes_true in E. rewrite (SH a Ha), (SH b Hb) in E.
      pose proof (units_quote cls edd ets a) as Ua. pose proof (units_quote cls edd ets b) as Ub.
      destruct Ud as [Cd|Cd]; rewrite Cd in E; cbn [fold_name] in E.
      * apply raw_exact in Ua, Ub. congruence.
      * destruct (detect_case_ro t) eqn:CT.
        -- assert (CAP : forall c, lower c <> c -> cls c = true).
           { intros c Hc. unfold dcs in Q. rewrite Cd in Q. cbn [ctq_from_fsas andb negb app] in Q. injection Q as <-.
             destruct c as [[] [] [] [] [] [] [] []]; vm_compute in Hc; try (exfalso; apply Hc; reflexivity); reflexivity. }
           apply (raw_capitals cls _ _ CAP) in Ua, Ub. congruence.
        -- apply (FoldS eq_refl a b Ha Hb). apply raw_fold in Ua, Ub. congruence.
  - assert (FX : f_ext d = true) by (destruct (f_ext d); [reflexivity|]; unfold ctq_from_fsas in Q; destruct (detect_case_ro t && negb dcs); discriminate Q).
    assert (FW : f_win d = false) by (destruct (f_win d); [|reflexivity]; unfold ctq_from_fsas in Q; rewrite FX in Q; destruct (detect_case_ro t && negb dcs); discriminate Q).
    assert (CD : detect_case_ro t && negb dcs = false) by (destruct (detect_case_ro t && negb dcs) eqn:X; [|reflexivity]; unfold ctq_from_fsas in Q; rewrite X in Q; discriminate Q).
    destruct Hq as [Hq|[Hq|[[Hs Hq]|[Hk Hv]]]]; [congruence|congruence| |].
    { exfalso. unfold dcs in CD. rewrite Hq, andb_true_r in CD. apply CS in CD. destruct CD as [CD _]. congruence. }
    destruct (TK a Ha) as [Ta Sa]. split.
    + unfold takes, shown. rewrite Hk, Hv. pose proof (taken_ne s a Ta Sa). destruct a as [|c a]; [contradiction|]. cbn [empty negb andb].
      rewrite !andb_true_r. apply forallb_forall. intros x Hx. unfold char_ok. now rewrite FX, FW.
    + intros b Hb E. unfold same, key, shown in E. rewrite Hk in E. apply beq_bytes_true in E.
      destruct Ud as [Cd|Cd]; rewrite Cd in E; cbn [fold_name] in E; [exact E|].
      unfold dcs in CD. rewrite Cd, andb_true_r in CD. now apply FoldS.
Qed.
Print Assumptions C71_no_collisions.

(** ** Where it fails *)
Definition posix : fs := mk_fs Exact Keep true false false true true true true true true true true.
Definition vfat : fs := mk_fs AsciiCase Strip false true true false false false false false false false false.
Definition ntfs_like : fs := mk_fs AsciiCase Keep true false false true true true true true true true true.
Definition tree (f : fs) (l : list bytes) : node := Dir f (map (fun n => (n, Leaf)) l).

(** Of names which are only to be escaped because of their end or of devices, nothing is
    escaped if there's nothing else to quote ("a." and "a" on a file system which drops
    periods at the end of names; _repo_shadow.py:222). *)
Definition dropping : fs := mk_fs Exact Strip true false true true true true true true true true true.
Theorem C71_periods_without_quoting_refuted : exists s d t dest after a b,
  usual s /\ usual d /\ t = tree s [a; b] /\ detect_rw d 3 [] 0 = (Some dest, after) /\ d_trail dest = true /\ d_dos dest = true /\
  detect_trailing_ro t = false /\ a <> b /\ same s a b = false /\ same d (repo_name t dest a) (repo_name t dest b) = true /\
  takes d (repo_name t dest (bs "con")) = false.
Proof.
  exists posix, dropping, (tree posix [bs "a."; bs "a"]). do 2 eexists. exists (bs "a."), (bs "a").
  split; [now left|]. split; [now left|]. repeat (split; [vm_compute; try reflexivity; try discriminate|]). vm_compute; reflexivity.
Qed.
Print Assumptions C71_periods_without_quoting_refuted.

(** A source which keeps periods but doesn't distinguish capitals is taken for one which
    drops periods, if "foo" is listed before "FOO."; the two then collide. *)
Theorem C71_periods_and_capitals_refuted : exists s d t dest after a b,
  usual s /\ usual d /\ t = tree s [a; b] /\ detect_rw d 3 [] 0 = (Some dest, after) /\
  f_end s = Keep /\ detect_trailing_ro t = true /\ same s a b = false /\
  same d (repo_name t dest a) (repo_name t dest b) = true.
Proof.
  exists ntfs_like, vfat, (tree ntfs_like [bs "foo"; bs "FOO."]). do 2 eexists. exists (bs "foo"), (bs "FOO.").
  split; [now right|]. split; [now right|]. repeat (split; [vm_compute; try reflexivity; try discriminate|]). vm_compute; reflexivity.
Qed.
Print Assumptions C71_periods_and_capitals_refuted.

(** A source with a file called "con" is taken for one with devices; the file, and all others
    called like a device, can then not be written. *)
Theorem C71_device_in_source_refuted : exists s d t dest after,
  usual s /\ usual d /\ t = tree s [bs "con"; bs "aux.c"] /\ detect_rw d 3 [] 0 = (Some dest, after) /\
  f_dev s = false /\ detect_dos_ro t = true /\ takes s (bs "con") = true /\
  takes d (repo_name t dest (bs "con")) = false /\ takes d (repo_name t dest (bs "aux.c")) = false.
Proof.
  exists posix, vfat, (tree posix [bs "con"; bs "aux.c"]). do 2 eexists.
  split; [now left|]. split; [now right|]. repeat (split; [vm_compute; try reflexivity; try discriminate|]). vm_compute; reflexivity.
Qed.
Print Assumptions C71_device_in_source_refuted.

(** Only one directory of the source is looked at: with a file system below which
    distinguishes capitals, in a directory of one which doesn't, names collide. *)
Theorem C71_mounts_refuted : exists outer inner d t dest after a b,
  usual outer /\ usual inner /\ usual d /\ inside t inner [(a, Leaf); (b, Leaf)] /\ same inner a b = false /\
  detect_rw d 3 [] 0 = (Some dest, after) /\ d_case dest = false /\
  same d (repo_name t dest a) (repo_name t dest b) = true.
Proof.
  exists ntfs_like, posix, vfat, (Dir ntfs_like [(bs "m", Dir posix [(bs "A", Leaf); (bs "a", Leaf)])]). do 2 eexists. exists (bs "A"), (bs "a").
  split; [now right|]. split; [now left|]. split; [now right|]. split; [eapply in_below; [now left|constructor]|].
  repeat (split; [vm_compute; try reflexivity; try discriminate|]). vm_compute; reflexivity.
Qed.
Print Assumptions C71_mounts_refuted.

(** Capitals outside of ASCII are never quoted: "É" and "é" collide on a file system which
    takes them for the same. *)
Fixpoint fold_latin (n : bytes) : bytes :=
  match n with
  | c :: r => match r with
              | e :: r' => if Ascii.eqb c (chr 195) && Ascii.eqb e (chr 137) then c :: chr 169 :: fold_latin r' else lower c :: fold_latin r
              | [] => [lower c]
              end
  | [] => []
  end.
Definition folding_latin : fs := mk_fs (Other fold_latin) Keep true false false true true true true true true true true.
Theorem C71_capitals_outside_ascii_refuted : exists s d t dest after a b,
  usual s /\ t = tree s [a; b] /\ detect_rw d 3 [] 0 = (Some dest, after) /\ d_case dest = false /\ detect_case_ro t = true /\
  same s a b = false /\ same d (repo_name t dest a) (repo_name t dest b) = true.
Proof.
  exists posix, folding_latin, (tree posix [map chr [195; 137]; map chr [195; 169]]). do 2 eexists. exists (map chr [195; 137]), (map chr [195; 169]).
  split; [now left|]. repeat (split; [vm_compute; try reflexivity; try discriminate|]). vm_compute; reflexivity.
Qed.
Print Assumptions C71_capitals_outside_ascii_refuted.

(** The permissions of directories are never tested: the "directory" is a file. *)
Theorem C71_high_permissions_refuted : exists f dest after,
  usual f /\ detect_rw f 3 [] 0 = (Some dest, after) /\ f_high_dir f = false /\ d_high dest = true.
Proof.
  exists (mk_fs Exact Keep true false false true true true true true false true true). do 2 eexists.
  split; [now left|]. repeat (split; [vm_compute; try reflexivity; try discriminate|]). vm_compute; reflexivity.
Qed.
Print Assumptions C71_high_permissions_refuted.

(** A test which goes wrong leaves its directory behind, in the repository. *)
Theorem C71_left_over_refuted : exists f root after t d,
  detect_rw f 3 root 0 = (None, after) /\ after = map (fun n => (n, [])) root ++ [(t, d)] /\ d <> [].
Proof.
  exists (mk_fs (Other (fun n => if beq_bytes n (bs "foo.") then bs "hl" else n)) Keep true false false true true true true true true true true), [bs "data"].
  do 3 eexists. vm_compute. split; [reflexivity|]. split; [reflexivity|]. discriminate.
Qed.
Print Assumptions C71_left_over_refuted.

(** ** The hypotheses are met *)
Definition home : node :=
  Dir posix [(bs "Makefile", Leaf); (bs "makefile", Leaf); (bs "Aux.c", Leaf);
             (bs "dir", Dir posix [(bs "a.", Leaf); (bs "a", Leaf); (bs "b?", Leaf); (map chr [7; 195], Leaf)])].
Lemma home_on : source_on posix home.
Proof.
  eexists. split; [reflexivity|]. intros f' l' I.
  assert (LO : forall l, forallb (takes posix) l = true -> NoDup l -> listing_of posix l).
  { intros l T N. split; [exact N|]. split.
    - intros n Hn. split; [|reflexivity]. rewrite forallb_forall in T. now apply T.
    - intros a b _ _ E. now apply beq_bytes_true in E. }
  inversion I; subst; clear I.
  - split; [reflexivity|]. apply LO; [vm_compute; reflexivity|]. repeat constructor; cbn; intuition discriminate.
  - match goal with H : In _ _ |- _ => repeat (destruct H as [H|H]); try contradiction; injection H as <- <- end;
      match goal with H : inside _ _ _ |- _ => inversion H; subst; clear H end.
    + split; [reflexivity|]. apply LO; [vm_compute; reflexivity|]. repeat constructor; cbn; intuition discriminate.
    + match goal with H : In _ _ |- _ => repeat (destruct H as [H|H]); try contradiction; injection H as <- <- end;
      match goal with H : inside _ _ _ |- _ => inversion H end.
Qed.
Example C71_met : exists dest after,
  detect_rw vfat 3 [bs "rdiff-backup.tmp.1"] 0 = (Some dest, after) /\
  after = [(bs "rdiff-backup.tmp.1", [])] /\
  repo_name home dest (bs "Makefile") = bs ";077akefile" /\ repo_name home dest (bs "Aux.c") = bs ";065ux.c" /\
  repo_name home dest (bs "aux.c") = bs ";097ux.c" /\ repo_name home dest (bs "a.") = bs "a;046" /\
  (forall f l a, inside home f l -> In a (map fst l) -> takes vfat (repo_name home dest a) = true).
Proof.
  assert (X : detect_rw vfat 3 [bs "rdiff-backup.tmp.1"] 0 = (Some (right_answers vfat), [(bs "rdiff-backup.tmp.1", [])])) by (vm_compute; reflexivity).
  do 2 eexists. split; [exact X|]. repeat (split; [vm_compute; reflexivity|]).
  intros f l a I Ha. eapply (C71_no_collisions posix vfat home 3 _ 0); try exact X; try eassumption.
  - now left.
  - now right.
  - apply home_on.
  - now left.
  - intros n Hn. cbn in Hn. intuition (subst; vm_compute; discriminate).
  - now left.
Qed.
Example C71_reading_met :
  detect_case_ro home = true /\ detect_case_ro (tree ntfs_like [bs "1"; bs "Foo"]) = false /\
  detect_trailing_ro (tree vfat [bs "foo"]) = true /\ detect_trailing_ro home = false.
Proof. repeat split; vm_compute; reflexivity. Qed.
