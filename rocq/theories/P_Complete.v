(** * C79: completion of the command line *)
From Coq Require Import List ZArith Bool Ascii Arith Lia Permutation Sorted.
From Verif Require Import Base L_Base M_Complete S_Complete.
Import List ListNotations.

Lemma get_mem {A} k (d : list (bytes * A)) : mem k d = match get k d with Some _ => true | None => false end.
Proof.
  induction d as [|[k' v] r IH]; [reflexivity|]. unfold mem in *. cbn [existsb fst get].
  destruct (beq_bytes k' k); [reflexivity|exact IH].
Qed.
Lemma get_in {A} k (d : list (bytes * A)) v : get k d = Some v -> In (k, v) d.
Proof.
  induction d as [|[k' v'] r IH]; [discriminate|]. cbn [get]. destruct (beq_bytes k' k) eqn:B.
  - apply beq_bytes_true in B. subst k'. intros E. injection E as ->. now left.
  - intros E. right. now apply IH.
Qed.
Lemma in_get {A} k (d : list (bytes * A)) : In k (map fst d) -> get k d <> None.
Proof.
  induction d as [|[k' v'] r IH]; [easy|]. cbn [get map fst In]. intros [->|I].
  - now rewrite (proj2 (beq_bytes_true k k) eq_refl).
  - destruct (beq_bytes k' k); [discriminate|now apply IH].
Qed.

Lemma get_both o s w : get w (as_opts o ++ as_subs s) =
  match get w o with Some a => Some (Some a) | None => match get w s with Some _ => Some None | None => None end end.
Proof.
  induction o as [|[k a] o IH].
  - cbn [as_opts map app get]. induction s as [|[k q] s IH]; [reflexivity|]. cbn [as_subs map fst get] in *.
    destruct (beq_bytes k w); [reflexivity|exact IH].
  - cbn [as_opts map app fst snd get] in *. destruct (beq_bytes k w); [reflexivity|exact IH].
Qed.
Lemma names_both o s : map fst (as_opts o ++ as_subs s) = map fst o ++ map fst s.
Proof.
  rewrite map_app. unfold as_opts, as_subs. rewrite !map_map. cbn [fst]. reflexivity.
Qed.

Lemma sorted_perm l : Permutation (sorted l) l.
Proof.
  induction l as [|x l IH]; [constructor|]. cbn [sorted fold_right]. fold (sorted l).
  rewrite <- IH at 2. generalize (sorted l). intros m. induction m as [|y m IHm]; [constructor; constructor|].
  cbn [insert]. destruct (le_b (key x) (key y)); [reflexivity|]. rewrite IHm. apply perm_swap.
Qed.
Lemma in_sorted x l : In x (sorted l) <-> In x l.
Proof. split; apply Permutation_in; [|symmetry]; apply sorted_perm. Qed.

(** ** one parser *)
Lemma parameter_none a : parameter a = None <-> (a_type a = None \/ a_type a = Some TBool).
Proof.
  unfold parameter. destruct (a_type a) as [[]|]; split; intros H; try discriminate; auto;
    destruct H as [H|H]; discriminate.
Qed.
Lemma parameter_some a l x : parameter a = Some l -> In x l -> In x (a_choices a) \/ x = bs "::file::".
Proof.
  unfold parameter. destruct (a_type a) as [t|]; [|discriminate]. intros H I.
  assert (E : l = match a_choices a with
            | [] => match t, a_metavar a with
                    | TFileType, _ => [bs "::file::"]
                    | TStr, Some m => if ends_with (bs "_FILE") m then [bs "::file::"] else []
                    | _, _ => []
                    end
            | c => c
            end) by (destruct t; [discriminate| | |]; injection H as <-; reflexivity).
  rewrite E in I. destruct (a_choices a) as [|c cs]; [right|now left].
  destruct t; try easy.
  - destruct (a_metavar a); [|easy]. destruct (ends_with _ _); [|easy]. destruct I as [<-|[]]. reflexivity.
  - destruct I as [<-|[]]. reflexivity.
Qed.

Section One.
Variables (options : list (bytes * option action)) (locs : option nargs) (words : list bytes) (c : nat).
Let word := nth c words [].
Let prev := nth (c - 1) words [].

Lemma matching_in l : matching options locs words c true = Some l ->
  (exists a, get prev options = Some (Some a) /\ parameter a = Some l) \/
  ((forall a, get prev options = Some (Some a) -> parameter a = None) /\
   (forall x, In x l -> x = bs "::file::" \/
      (In x (map fst options) /\ starts_with word x = true /\ (~ In x words \/ (x = word)))) /\
   (forall x, In x (map fst options) -> starts_with word x = true -> (~ In x words \/ (x = word /\ word <> [])) -> In x l)).
Proof.
  unfold matching. fold word. fold prev. intros H.
  destruct (get prev options) as [[a|]|] eqn:G.
  1: destruct (parameter a) as [l'|] eqn:P; [injection H as <-; left; now exists a|].
  all: right; split; [intros b E; congruence || (injection E as <-; exact P)|].
  all: set (opts := match word with [] => map fst options | _ => filter (starts_with word) (map fst options) end) in *.
  all: assert (O : forall x, In x opts <-> In x (map fst options) /\ starts_with word x = true)
    by (intros x; unfold opts; destruct word as [|ch wd]; [split; [intros I; split; [exact I|destruct x; reflexivity]|intros [I _]; exact I]|apply filter_In]).
  all: match type of H with (if ?m then Some (sorted ?L) else _) = _ => set (L0 := L) in *; set (mt := m) in * end.
  all: assert (F : forall x, In x L0 -> In x (map fst options) /\ starts_with word x = true /\ (~ In x words \/ x = word)).
  1,3,5: intros x I; unfold L0 in I; apply filter_In in I as [I B]; apply O in I as [I S0]; split; [exact I|]; split; [exact S0|];
    apply orb_prop in B; destruct B as [B|B];
    [left; intros W; apply negb_true_iff in B; assert (X : existsb (beq_bytes x) words = true) by
       (apply existsb_exists; exists x; split; [exact W|now apply beq_bytes_true]); congruence
    |right; destruct word; [discriminate|now apply beq_bytes_true in B]].
  all: assert (F2 : forall x, In x (map fst options) -> starts_with word x = true -> (~ In x words \/ (x = word /\ word <> [])) -> In x L0).
  1,3,5: intros x I S0 C; unfold L0; apply filter_In; split; [now apply O|]; apply orb_true_iff; destruct C as [C|[C1 C2]];
    [left; apply negb_true_iff; destruct (existsb (beq_bytes x) words) eqn:X; [|reflexivity];
     apply existsb_exists in X as (y & Y & B); apply beq_bytes_true in B; subst y; contradiction
    |right; destruct word; [congruence|now apply beq_bytes_true]].
  all: assert (R : (exists t, l = sorted L0 ++ t /\ (t = [] \/ t = [bs "::file::"]))).
  1,3,5: destruct mt; [injection H as <-; exists []; rewrite app_nil_r; auto|];
    destruct (wants_file locs (List.length words) c) as [[|]|]; [injection H as <-; eexists; split; [reflexivity|now right]|injection H as <-; exists []; rewrite app_nil_r; auto|discriminate].
  all: destruct R as (t & -> & T); split;
    [intros x I; apply in_app_or in I; destruct I as [I|I];
     [right; apply F; now apply in_sorted|left; destruct T as [->| ->]; [easy|destruct I as [<-|[]]; reflexivity]]
    |intros x I S0 C; apply in_or_app; left; apply in_sorted; now apply F2].
Qed.
End One.

(** ** walking down to the parser in charge *)
Lemma parser_ind2 (P : parser -> Prop) :
  (forall o s l, (forall n q, In (n, q) s -> P q) -> P (Parser o s l)) -> forall p, P p.
Proof.
  intros H. refine (fix IH (p : parser) : P p :=
    match p with
    | Parser o s l => H o s l
        ((fix go (s : list (bytes * parser)) : forall n q, In (n, q) s -> P q :=
            match s with
            | [] => fun n q (I : In (n, q) []) => match I with end
            | e :: r => fun n q I =>
                match I with
                | or_introl E => eq_ind (snd e) P (match e as e0 return P (snd e0) with (_, q0) => IH q0 end) q (f_equal snd E)
                | or_intror I' => go r n q I'
                end
            end) s)
    end).
Qed.

Lemma action_idx_none {A} (s : list (bytes * A)) ws : action_idx s ws = None -> forall w, In w ws -> get w s = None.
Proof.
  induction ws as [|x ws IH]; [easy|]. cbn [action_idx]. rewrite get_mem. destruct (get x s) eqn:G; [discriminate|].
  destruct (action_idx s ws); [discriminate|]. intros _ w [<-|I]; [exact G|now apply IH].
Qed.
Lemma action_idx_some {A} (s : list (bytes * A)) ws i : action_idx s ws = Some i ->
  exists b w a v, ws = b ++ w :: a /\ List.length b = i /\ get w s = Some v /\ (forall x, In x b -> get x s = None).
Proof.
  revert i. induction ws as [|x ws IH]; intros i; [discriminate|]. cbn [action_idx]. rewrite get_mem.
  destruct (get x s) as [v|] eqn:G.
  - intros E. injection E as <-. exists [], x, ws, v. repeat split; easy.
  - destruct (action_idx s ws) as [j|]; [|discriminate]. intros E. injection E as <-.
    destruct (IH j eq_refl) as (b & w & a & v & -> & L & Gw & N). exists (x :: b), w, a, v.
    repeat split; [cbn; now rewrite L|exact Gw|]. intros y [<-|I]; [exact G|now apply N].
Qed.

Lemma charge_none p : forall B g, (forall w, In w B -> get w (p_subs p) = None) -> charge p g B = (p, g ++ B).
Proof.
  induction B as [|w B IH]; intros g N; cbn [charge]; [now rewrite app_nil_r|].
  rewrite (N w (or_introl eq_refl)). rewrite IH by (intros x I; apply N; now right).
  now rewrite <- app_assoc.
Qed.
Lemma charge_sub p q b w a : get w (p_subs p) = Some q -> (forall x, In x b -> get x (p_subs p) = None) ->
  forall g, charge p g (b ++ w :: a) = charge q [] a.
Proof.
  intros G. induction b as [|x b IH]; intros N g; cbn [app charge].
  - now rewrite G.
  - rewrite (N x (or_introl eq_refl)). apply IH. intros y I. apply N. now right.
Qed.

(** what the recursion ends with *)
Definition ends (r : parser) (g words : list bytes) (c : nat) (l : list bytes) : Prop :=
  (l = [nth c words []] /\ action_of r (nth c words [])) \/
  exists i c' pre, (i + c' = c /\ 1 <= c')%nat /\ skipn i words = pre ++ g ++ skipn c words /\
    List.length (pre ++ g) = c' /\
    (matching (as_opts (p_opts r) ++ as_subs (p_subs r)) (p_locs r) (skipn i words) c' true = Some l \/
     ((exists w, In w (skipn c words) /\ action_of r w) /\
      matching (as_opts (p_opts r)) (p_locs r) (skipn i words) c' true = Some l)).

Lemma find_get (f : parser -> option (list bytes)) w s :
  (fix find (l : list (bytes * parser)) :=
     match l with
     | [] => None
     | (n, q) :: r => if beq_bytes n w then f q else find r
     end) s = match get w s with Some q => f q | None => None end.
Proof.
  induction s as [|[n q] s IH]; [reflexivity|]. cbn [get]. destruct (beq_bytes n w); [reflexivity|exact IH].
Qed.

Lemma skipn_nth (ws : list bytes) i c : nth c (skipn i ws) [] = nth (i + c) ws [].
Proof.
  revert ws. induction i as [|i IH]; intros ws; [reflexivity|]. destruct ws; [destruct c; reflexivity|]. apply IH.
Qed.

Lemma skipn_twice {A} i j (l : list A) : skipn i (skipn j l) = skipn (i + j) l.
Proof.
  revert l. induction j as [|j IH]; intros l; [now rewrite Nat.add_0_r|].
  destruct l as [|x l]; [now rewrite !skipn_nil|]. rewrite Nat.add_succ_r. exact (IH l).
Qed.

Lemma sub_ends p : well_named p -> forall name tl c l,
  get name (p_subs p) = None -> (1 <= c <= List.length tl)%nat ->
  sub_options p (name :: tl) c true = Some l ->
  let '(r, g) := charge p [] (firstn (c - 1) tl) in ends r g (name :: tl) c l.
Proof.
  induction p as [o s lo IH] using parser_ind2. intros W name tl c l Gn C H.
  inversion W as [? ? ? WS]; subst.
  cbn [sub_options] in H.
  assert (HERE : (forall w, In w (firstn (c - 1) tl) -> get w s = None) ->
    matching (as_opts o ++ as_subs s) lo (name :: tl) c true = Some l ->
    let '(r, g) := charge (Parser o s lo) [] (firstn (c - 1) tl) in ends r g (name :: tl) c l).
  { intros N M. rewrite charge_none by exact N. cbn [app]. right. exists 0%nat, c, [name]. split; [lia|].
    split; [|split; [|left; exact M]].
    - destruct c as [|c]; [lia|]. cbn [skipn app Nat.sub]. rewrite Nat.sub_0_r. now rewrite firstn_skipn.
    - cbn [app List.length]. rewrite firstn_length. lia. }
  destruct (List.length (name :: tl) =? 2)%nat eqn:L2.
  { apply HERE; [|exact H]. cbn [List.length] in L2. apply Nat.eqb_eq in L2. replace (c - 1)%nat with 0%nat by lia. easy. }
  destruct (action_idx s (name :: tl)) as [i|] eqn:AI.
  2: { apply HERE; [|exact H]. intros w I. apply (action_idx_none _ _ AI). right.
       rewrite <- (firstn_skipn (c - 1) tl). apply in_or_app. now left. }
  destruct (action_idx_some _ _ _ AI) as (b & w & a & q & E & Lb & Gw & Nb).
  destruct b as [|n0 b]; [injection E as <- _; cbn in Gn; congruence|].
  injection E as <- E. cbn [List.length] in Lb. subst i.
  assert (NW : nth (S (List.length b)) (name :: tl) [] = w).
  { cbn [nth]. rewrite E, app_nth2, Nat.sub_diag by lia. reflexivity. }
  rewrite NW in H.
  assert (Nb' : forall x, In x b -> get x s = None) by (intros x I; apply Nb; now right).
  destruct (Nat.eqb_spec c (S (List.length b))) as [Ec|Nc].
  - injection H as <-. subst c. cbn [Nat.sub]. rewrite Nat.sub_0_r, E, firstn_app, firstn_all, Nat.sub_diag, firstn_O, app_nil_r.
    rewrite charge_none by exact Nb'. left. rewrite <- E, NW. split; [reflexivity|].
    unfold action_of. cbn [p_subs]. apply in_map_iff. exists (w, q). split; [reflexivity|now apply get_in].
  - destruct (Nat.ltb_spec (S (List.length b)) c) as [Lc|]; [|discriminate].
    rewrite (find_get (fun q => sub_options q (skipn (S (List.length b)) (name :: tl)) (c - S (List.length b)) true)), Gw in H.
    assert (SK : skipn (S (List.length b)) (name :: tl) = w :: a).
    { cbn [skipn]. rewrite E, skipn_app, skipn_all, Nat.sub_diag. reflexivity. }
    rewrite SK in H. destruct (WS w q (get_in _ _ _ Gw)) as [Wq Gq].
    assert (LT : List.length tl = (List.length b + S (List.length a))%nat) by (rewrite E, app_length; reflexivity).
    specialize (IH w q (get_in _ _ _ Gw) Wq w a (c - S (List.length b))%nat l Gq ltac:(lia) H).
    assert (CH : charge (Parser o s lo) [] (firstn (c - 1) tl) = charge q [] (firstn (c - S (List.length b) - 1) a)).
    { rewrite E, firstn_app. rewrite (firstn_all2 b) by lia.
      replace (c - 1 - List.length b)%nat with (S (c - S (List.length b) - 1)) by lia. cbn [firstn].
      now apply charge_sub. }
    rewrite CH. destruct (charge q [] (firstn (c - S (List.length b) - 1) a)) as [r g].
    assert (NC : nth (c - S (List.length b)) (w :: a) [] = nth c (name :: tl) []).
    { rewrite <- SK, skipn_nth. f_equal. lia. }
    assert (SC : skipn (c - S (List.length b)) (w :: a) = skipn c (name :: tl)).
    { rewrite <- SK, skipn_twice. f_equal. lia. }
    destruct IH as [[-> A]|(i & c' & pre & [I1 I2] & SKI & LP & M)].
    + left. rewrite NC in *. now split.
    + right. exists (S (List.length b) + i)%nat, c', pre. split; [lia|].
      assert (SI : skipn (S (List.length b) + i) (name :: tl) = skipn i (w :: a)).
      { rewrite Nat.add_comm, <- skipn_twice. now rewrite SK. }
      rewrite SI, <- SC. repeat split; assumption.
Qed.

Lemma top_ends p (words : list bytes) c l : well_named p -> (1 <= c < List.length words)%nat ->
  get (nth 0 words []) (p_subs p) = None ->
  possible_options p words (Z.of_nat c) true = Some l ->
  let '(r, g) := charge p [] (firstn c words) in ends r g words c l.
Proof.
  intros W C G0 H. destruct p as [o s lo]. inversion W as [? ? ? WS]; subst. cbn [p_subs] in *.
  unfold possible_options in H.
  rewrite (proj2 (Z.ltb_ge (Z.of_nat c) 0)) in H by lia. rewrite (proj2 (Z.ltb_ge (Z.of_nat c) 0)) in H by lia.
  match type of H with (if ?x then _ else _) = _ => destruct x eqn:D0 end.
  { exfalso. apply orb_prop in D0. destruct D0 as [D0|D0]; [apply Nat.eqb_eq in D0|apply Z.eqb_eq in D0]; lia. }
  rewrite Nat2Z.id in H. cbn [p_opts p_subs p_locs] in H.
  assert (HERE : forall M : Prop, (forall w, In w (firstn c words) -> get w s = None) ->
    (matching (as_opts o ++ as_subs s) lo words c true = Some l \/
     ((exists w, In w (skipn c words) /\ action_of (Parser o s lo) w) /\ matching (as_opts o) lo words c true = Some l)) ->
    let '(r, g) := charge (Parser o s lo) [] (firstn c words) in ends r g words c l).
  { intros _ N M. rewrite charge_none by exact N. cbn [app]. right. exists 0%nat, c, []. split; [lia|].
    split; [|split; [|exact M]].
    - cbn [skipn app]. now rewrite firstn_skipn.
    - cbn [app]. rewrite firstn_length. lia. }
  destruct (List.length words =? 2)%nat eqn:L2.
  { apply (HERE True); [|left; exact H]. apply Nat.eqb_eq in L2. destruct words as [|w0 [|w1 [|? ?]]]; try discriminate.
    cbn [List.length] in C. replace c with 1%nat by lia. cbn [firstn]. intros w [<-|[]]. exact G0. }
  destruct (action_idx s words) as [i|] eqn:AI.
  2: { apply (HERE True); [|left; exact H]. intros w I. apply (action_idx_none _ _ AI).
       rewrite <- (firstn_skipn c words). apply in_or_app. now left. }
  destruct (action_idx_some _ _ _ AI) as (b & w & a & q & E & Lb & Gw & Nb). subst i.
  assert (NW : nth (List.length b) words [] = w) by (rewrite E, app_nth2, Nat.sub_diag by lia; reflexivity).
  rewrite NW in H.
  assert (AO : action_of (Parser o s lo) w).
  { unfold action_of. cbn [p_subs]. apply in_map_iff. exists (w, q). split; [reflexivity|now apply get_in]. }
  destruct (Nat.eqb_spec c (List.length b)) as [Ec|Nc].
  - injection H as <-. subst c. rewrite E, firstn_app, firstn_all, Nat.sub_diag, firstn_O, app_nil_r.
    rewrite charge_none by exact Nb. left. rewrite <- E, NW. split; [reflexivity|exact AO].
  - destruct (Nat.ltb_spec (List.length b) c) as [Lc|Lc].
    + rewrite Gw in H.
      assert (SK : skipn (List.length b) words = w :: a) by (rewrite E, skipn_app, skipn_all, Nat.sub_diag; reflexivity).
      rewrite SK in H. destruct (WS w q (get_in _ _ _ Gw)) as [Wq Gq].
      assert (LT : List.length words = (List.length b + S (List.length a))%nat) by (rewrite E, app_length; reflexivity).
      pose proof (sub_ends q Wq w a (c - List.length b)%nat l Gq ltac:(lia) H) as IH.
      assert (CH : charge (Parser o s lo) [] (firstn c words) = charge q [] (firstn (c - List.length b - 1) a)).
      { rewrite E, firstn_app. rewrite (firstn_all2 b) by lia.
        replace (c - List.length b)%nat with (S (c - List.length b - 1)) by lia. cbn [firstn Nat.sub]. rewrite Nat.sub_0_r.
        now apply charge_sub. }
      rewrite CH. destruct (charge q [] (firstn (c - List.length b - 1) a)) as [r g].
      assert (NC : nth (c - List.length b) (w :: a) [] = nth c words []) by (rewrite <- SK, skipn_nth; f_equal; lia).
      assert (SC : skipn (c - List.length b) (w :: a) = skipn c words) by (rewrite <- SK, skipn_twice; f_equal; lia).
      destruct IH as [[-> A]|(i & c' & pre & [I1 I2] & SKI & LP & M)].
      * left. rewrite NC in *. now split.
      * right. exists (List.length b + i)%nat, c', pre. split; [lia|].
        assert (SI : skipn (List.length b + i) words = skipn i (w :: a)) by (rewrite Nat.add_comm, <- skipn_twice, SK; reflexivity).
        rewrite SI, <- SC. repeat split; assumption.
    + apply (HERE True).
      * intros x I. apply Nb. rewrite E, firstn_app in I. replace (c - List.length b)%nat with 0%nat in I by lia.
        rewrite firstn_O, app_nil_r in I. rewrite <- (firstn_skipn c b). apply in_or_app. now left.
      * right. split; [|exact H]. exists w. split; [|exact AO]. rewrite E, skipn_app. apply in_or_app. right.
        replace (c - List.length b)%nat with 0%nat by lia. now left.
Qed.

Lemma pre_check_in (words : list bytes) c : (1 <= c < List.length words)%nat -> pre_check words (Z.of_nat c) = true.
Proof.
  intros C. unfold pre_check. rewrite (proj2 (Nat.eqb_neq (List.length words) 0)) by lia.
  rewrite (proj2 (Z.leb_le _ _)), (proj2 (Z.ltb_lt _ _)) by lia. reflexivity.
Qed.

Lemma ends_nth (words : list bytes) i c c' : (i + c' = c)%nat -> nth c' (skipn i words) [] = nth c words [].
Proof. intros <-. apply skipn_nth. Qed.
Lemma ends_prev (words : list bytes) i c c' : (i + c' = c /\ 1 <= c')%nat ->
  nth (c' - 1) (skipn i words) [] = nth (c - 1) words [].
Proof. intros [<- L]. rewrite skipn_nth. f_equal. lia. Qed.

Lemma names_opts o : map fst (as_opts o) = map fst o.
Proof. unfold as_opts. rewrite map_map. reflexivity. Qed.
Lemma get_opts o w : get w (as_opts o) = match get w o with Some a => Some (Some a) | None => None end.
Proof.
  induction o as [|[k a] o IH]; [reflexivity|]. cbn [as_opts map fst snd get] in *.
  destruct (beq_bytes k w); [reflexivity|exact IH].
Qed.

(** C79: everything offered fits: it is the word itself (naming an action), a file, a
    value of the option before the cursor, or an option or action of the parser in
    charge at the cursor which starts with the word and was not given yet (apart from
    the word itself). *)
Theorem C79_offers_fit : forall p (words : list bytes) (c : nat) l,
  well_named p -> (1 <= c < List.length words)%nat -> get (nth 0 words []) (p_subs p) = None ->
  complete p words (Z.of_nat c) true = Some l ->
  let word := nth c words [] in
  let prev := nth (c - 1) words [] in
  let '(r, given) := charge p [] (firstn c words) in
  forall x, In x l ->
    x = bs "::file::" \/
    (x = word /\ action_of r word) \/
    (takes_parameter r prev /\ offered_value r prev x) \/
    ((option_of r x \/ action_of r x) /\ starts_with word x = true /\
     (~ In x (given ++ skipn c words) \/ x = word)).
Proof.
  intros p words c l W C G0 H word prev. unfold complete in H. rewrite pre_check_in in H by exact C.
  pose proof (top_ends p words c l W C G0 H) as E. destruct (charge p [] (firstn c words)) as [r g].
  intros x I. destruct E as [[-> A]|(i & c' & pre & IC & SK & LP & M)].
  { destruct I as [<-|[]]. right. left. split; [reflexivity|exact A]. }
  assert (PV := ends_prev words i c c' IC). assert (WD := ends_nth words i c c' (proj1 IC)).
  assert (NP : forall a l0, get prev (p_opts r) = Some a -> parameter a = Some l0 -> In x l0 ->
               takes_parameter r prev /\ offered_value r prev x).
  { intros a l0 G P J. split.
    - destruct (a_type a) as [t|] eqn:T.
      + exists a, t. repeat split; try assumption. intros ->.
        assert (X : parameter a = None) by (apply parameter_none; now right). congruence.
      + assert (X : parameter a = None) by (apply parameter_none; now left). congruence.
    - exists a. split; [exact G|]. exact (parameter_some a l0 x P J). }
  assert (NI : forall ws, skipn i words = ws -> ~ In x ws -> ~ In x (g ++ skipn c words)).
  { intros ws <- N J. apply N. rewrite SK. apply in_or_app. now right. }
  destruct M as [M|[_ M]].
  - destruct (matching_in _ _ _ _ _ M) as [(a & G & P)|(_ & S1 & _)].
    + rewrite PV, get_both in G. fold prev in G. destruct (get prev (p_opts r)) as [a'|] eqn:G'.
      * injection G as ->. right. right. left. now apply (NP a l).
      * destruct (get prev (p_subs r)); discriminate.
    + destruct (S1 x I) as [->|(J & S0 & F)]; [now left|]. right. right. right.
      rewrite names_both in J. rewrite WD in S0, F. split; [apply in_app_or in J; exact J|].
      split; [exact S0|]. destruct F as [F|F]; [left; now apply (NI (skipn i words))|now right].
  - destruct (matching_in _ _ _ _ _ M) as [(a & G & P)|(_ & S1 & _)].
    + rewrite PV, get_opts in G. fold prev in G. destruct (get prev (p_opts r)) as [a'|] eqn:G'; [|discriminate].
      injection G as ->. right. right. left. now apply (NP a l).
    + destruct (S1 x I) as [->|(J & S0 & F)]; [now left|]. right. right. right.
      rewrite names_opts in J. rewrite WD in S0, F. split; [now left|].
      split; [exact S0|]. destruct F as [F|F]; [left; now apply (NI (skipn i words))|now right].
Qed.
Print Assumptions C79_offers_fit.

(** C79: nothing is forgotten: every option of the parser in charge starting with the
    word, and not given yet, is offered, unless the word before takes a parameter or the
    word is itself an action; and so is every action, when no action follows. *)
Theorem C79_offers_all : forall p (words : list bytes) (c : nat) l,
  well_named p -> (1 <= c < List.length words)%nat -> get (nth 0 words []) (p_subs p) = None ->
  complete p words (Z.of_nat c) true = Some l ->
  let word := nth c words [] in
  let prev := nth (c - 1) words [] in
  let '(r, given) := charge p [] (firstn c words) in
  ~ takes_parameter r prev ->
  forall x, starts_with word x = true -> (~ In x words \/ (x = word /\ word <> [])) ->
    (option_of r x /\ ~ action_of r word) \/
    (action_of r x /\ forall w, In w (skipn c words) -> ~ action_of r w) -> In x l.
Proof.
  intros p words c l W C G0 H word prev. unfold complete in H. rewrite pre_check_in in H by exact C.
  pose proof (top_ends p words c l W C G0 H) as E. destruct (charge p [] (firstn c words)) as [r g].
  intros NT x SW F O.
  assert (WI : In word (skipn c words)).
  { unfold word. replace c with (c + 0)%nat at 1 by lia. rewrite <- skipn_nth. apply nth_In.
    rewrite skipn_length. lia. }
  destruct E as [[-> A]|(i & c' & pre & IC & SK & LP & M)].
  { exfalso. destruct O as [[_ N]|[_ N]]; [now apply N|]. now apply (N word). }
  assert (PV := ends_prev words i c c' IC). assert (WD := ends_nth words i c c' (proj1 IC)).
  assert (NP : forall a l0, get prev (p_opts r) = Some a -> parameter a = Some l0 -> False).
  { intros a l0 G P. apply NT. destruct (a_type a) as [t|] eqn:T.
    - exists a, t. repeat split; try assumption. intros ->.
      assert (X : parameter a = None) by (apply parameter_none; now right). congruence.
    - assert (X : parameter a = None) by (apply parameter_none; now left). congruence. }
  assert (F' : ~ In x (skipn i words) \/ x = word /\ word <> []).
  { destruct F as [F|F]; [left|now right]. intros J. apply F. rewrite <- (firstn_skipn i words). apply in_or_app. now right. }
  destruct M as [M|[(w & J & Aw) M]].
  - destruct (matching_in _ _ _ _ _ M) as [(a & G & P)|(_ & _ & S2)].
    + exfalso. rewrite PV, get_both in G. fold prev in G. destruct (get prev (p_opts r)) as [a'|] eqn:G'.
      * injection G as ->. exact (NP a l eq_refl P).
      * destruct (get prev (p_subs r)); discriminate.
    + rewrite WD in S2. apply S2; [|exact SW|exact F']. rewrite names_both. apply in_or_app.
      destruct O as [[O _]|[O _]]; [now left|now right].
  - destruct (matching_in _ _ _ _ _ M) as [(a & G & P)|(_ & _ & S2)].
    + exfalso. rewrite PV, get_opts in G. fold prev in G. destruct (get prev (p_opts r)) as [a'|] eqn:G'; [|discriminate].
      injection G as ->. exact (NP a l eq_refl P).
    + rewrite WD in S2. apply S2; [|exact SW|exact F']. rewrite names_opts.
      destruct O as [[O _]|[_ N]]; [exact O|]. exfalso. exact (N w J Aw).
Qed.
Print Assumptions C79_offers_all.

(** ** order *)
Lemma le_b_le a : forall b, le_b a b = true -> bytes_le a b.
Proof.
  induction a as [|x a IH]; intros [|y b] H; cbn [le_b] in H; [apply ble_nil|apply ble_nil|discriminate|].
  destruct (N.ltb_spec (ord x) (ord y)) as [L|L]; [apply ble_lt; exact L|].
  destruct (N.ltb_spec (ord y) (ord x)) as [L2|L2]; [discriminate|].
  assert (E : x = y).
  { assert (O : ord x = ord y) by lia. unfold ord in O. rewrite <- (ascii_N_embedding x), <- (ascii_N_embedding y). now rewrite O. }
  subst y. apply ble_eq. now apply IH.
Qed.
Lemma le_b_total a : forall b, le_b a b = false -> le_b b a = true.
Proof.
  induction a as [|x a IH]; intros [|y b] H; cbn [le_b] in *; try discriminate; [reflexivity|].
  destruct (N.ltb_spec (ord x) (ord y)) as [L|L]; [discriminate|].
  destruct (N.ltb_spec (ord y) (ord x)) as [L2|L2]; [reflexivity|]. now apply IH.
Qed.
Definition okey (a b : bytes) : Prop := bytes_le (dashless a) (dashless b).
Lemma insert_sorted x l : Sorted okey l -> Sorted okey (insert x l).
Proof.
  induction l as [|y l IH]; intros H; cbn [insert]; [now repeat constructor|].
  destruct (le_b (key x) (key y)) eqn:E.
  - constructor; [exact H|]. constructor. exact (le_b_le _ _ E).
  - apply le_b_total in E. apply le_b_le in E. inversion H as [|? ? H1 H2]; subst. constructor; [now apply IH|].
    destruct l as [|z l]; cbn [insert]; [now constructor|].
    destruct (le_b (key x) (key z)); [now constructor|]. constructor. now inversion H2.
Qed.
Lemma sorted_sorted l : Sorted okey (sorted l).
Proof. induction l as [|x l IH]; [constructor|]. cbn [sorted fold_right]. now apply insert_sorted. Qed.

Lemma matching_sorted options locs words c l : matching options locs words c true = Some l ->
  (exists a, get (nth (c - 1) words []) options = Some (Some a) /\ parameter a = Some l) \/
  exists s t, l = s ++ t /\ (t = [] \/ t = [bs "::file::"]) /\ Sorted okey s.
Proof.
  unfold matching. intros H.
  destruct (get _ options) as [[a|]|] eqn:G.
  1: destruct (parameter a) as [l'|] eqn:P; [injection H as <-; left; now exists a|].
  all: right; match type of H with (if ?m then Some (sorted ?L) else _) = _ => exists (sorted L); destruct m end.
  1,3,5: injection H as <-; exists []; rewrite app_nil_r; repeat split; [now left|apply sorted_sorted].
  all: destruct (wants_file locs (List.length words) c) as [[|]|]; [| |discriminate]; injection H as <-;
    eexists; (split; [reflexivity||(symmetry; apply app_nil_r)|]); split; [auto|apply sorted_sorted|auto|apply sorted_sorted].
Qed.

(** C79: options and actions come in order, dashes aside, a file at the end. *)
Theorem C79_in_order : forall p (words : list bytes) (c : nat) l,
  well_named p -> (1 <= c < List.length words)%nat -> get (nth 0 words []) (p_subs p) = None ->
  complete p words (Z.of_nat c) true = Some l ->
  let '(r, given) := charge p [] (firstn c words) in
  ~ takes_parameter r (nth (c - 1) words []) ->
  exists s t, l = s ++ t /\ (t = [] \/ t = [bs "::file::"]) /\
    Sorted (fun a b => bytes_le (dashless a) (dashless b)) s.
Proof.
  intros p words c l W C G0 H. unfold complete in H. rewrite pre_check_in in H by exact C.
  pose proof (top_ends p words c l W C G0 H) as E. destruct (charge p [] (firstn c words)) as [r g].
  intros NT. destruct E as [[-> A]|(i & c' & pre & IC & SK & LP & M)].
  { eexists [_], []. split; [reflexivity|]. split; [now left|]. repeat constructor. }
  assert (PV := ends_prev words i c c' IC).
  assert (NP : forall a l0, get (nth (c - 1) words []) (p_opts r) = Some a -> parameter a = Some l0 -> False).
  { intros a l0 G P. apply NT. destruct (a_type a) as [t|] eqn:T.
    - exists a, t. repeat split; try assumption. intros ->.
      assert (X : parameter a = None) by (apply parameter_none; now right). congruence.
    - assert (X : parameter a = None) by (apply parameter_none; now left). congruence. }
  destruct M as [M|[_ M]]; destruct (matching_sorted _ _ _ _ _ M) as [(a & G & P)|K]; try exact K; exfalso;
    rewrite PV in G; [rewrite get_both in G|rewrite get_opts in G];
    destruct (get _ (p_opts r)) as [a'|]; try discriminate;
    try (injection G as ->; exact (NP a l eq_refl P)).
  destruct (get _ (p_subs r)); discriminate.
Qed.
Print Assumptions C79_in_order.

(** ** files *)
Lemma wants_file_iff lo n c : (c < n)%nat ->
  (wants_file lo n c = Some true -> exists k, lo = Some k /\ room_for_file k (n - c)) /\
  (forall k, lo = Some k -> room_for_file k (n - c) -> wants_file lo n c = Some true).
Proof.
  intros C. split.
  - intros H. destruct lo as [[]|]; cbn [wants_file] in H; try discriminate; eexists; (split; [reflexivity|]); cbn [room_for_file]; auto.
    + destruct (Nat.leb_spec (n - 1) c); [lia|discriminate].
    + injection H as H. apply Nat.leb_le in H. lia.
  - intros k -> R. destruct k; cbn [wants_file room_for_file] in *; try reflexivity.
    + destruct (Nat.leb_spec (n - 1) c); [reflexivity|lia].
    + f_equal. apply Nat.leb_le. lia.
Qed.

Lemma matching_file options locs (words : list bytes) c l : (c < List.length words)%nat ->
  ~ In (bs "::file::") (map fst options) ->
  (forall a l', get (nth (c - 1) words []) options = Some (Some a) -> parameter a = Some l' -> False) ->
  matching options locs words c true = Some l ->
  (In (bs "::file::") l <->
   (nth c words [] = [] \/ forall x, In x (map fst options) -> starts_with (nth c words []) x = false) /\
   exists k, locs = Some k /\ room_for_file k (List.length words - c)).
Proof.
  intros C NF NP H. unfold matching in H.
  assert (E : match get (nth (c - 1) words []) options with Some (Some a) => parameter a | _ => None end = None).
  { destruct (get _ options) as [[a|]|] eqn:G; [|reflexivity|reflexivity].
    destruct (parameter a) as [l'|] eqn:P; [destruct (NP a l' eq_refl P)|reflexivity]. }
  rewrite E in H. clear E NP. destruct (wants_file_iff locs _ _ C) as [WF FW].
  set (O := match nth c words [] with [] => map fst options | _ => filter (starts_with (nth c words [])) (map fst options) end) in *.
  assert (SUB : forall x, In x O -> In x (map fst options)).
  { unfold O. intros x. destruct (nth c words []); [auto|]. rewrite filter_In. tauto. }
  match type of H with context [sorted ?L] => set (S0 := L) in *; assert (NS : ~ In (bs "::file::") (sorted S0)) end.
  { rewrite in_sorted. unfold S0. rewrite filter_In. intros [J _]. now apply NF, SUB. }
  clearbody S0.
  assert (M : (match nth c words [] with [] => false | _ => match O with [] => false | _ => true end end = true) \/
              (match nth c words [] with [] => false | _ => match O with [] => false | _ => true end end = false)) by (clear; clearbody O; destruct (nth c words []), O; auto).
  assert (MI : match nth c words [] with [] => false | _ => match O with [] => false | _ => true end end = false <->
     (nth c words [] = [] \/ forall x, In x (map fst options) -> starts_with (nth c words []) x = false)).
  { unfold O. destruct (nth c words []) as [|b w]; [split; [now left|reflexivity]|].
    destruct (filter _ _) as [|y q] eqn:F.
    - split; [|reflexivity]. intros _. right. intros x J. destruct (starts_with (b :: w) x) eqn:S; [|reflexivity].
      assert (K : In x (filter (starts_with (b :: w)) (map fst options))) by (apply filter_In; now split). now rewrite F in K.
    - split; [discriminate|]. intros [Q|Q]; [discriminate|].
      assert (K : In y (filter (starts_with (b :: w)) (map fst options))) by (rewrite F; now left).
      apply filter_In in K as [K1 K2]. rewrite (Q y K1) in K2. discriminate. }
  assert (H' : (if match nth c words [] with [] => false | _ => match O with [] => false | _ => true end end then Some (sorted S0)
     else match wants_file locs (List.length words) c with
          | Some true => Some (sorted S0 ++ [bs "::file::"]) | Some false => Some (sorted S0) | None => None end) = Some l).
  { clearbody O. destruct (nth c words []), O; exact H. }
  clear H. rewrite <- MI. destruct M as [M|M]; rewrite M in *.
  - injection H' as <-. split; [intros J; now destruct (NS J)|]. intros [Q _]. discriminate.
  - destruct (wants_file locs (List.length words) c) as [[|]|]; [| |discriminate]; injection H' as <-.
    + split; [intros _; split; [reflexivity|now apply WF]|]. intros _. apply in_or_app. right. now left.
    + split; [intros J; now destruct (NS J)|]. intros [_ (k & E & R)]. specialize (FW k E R). discriminate.
Qed.

(** C79: files are offered exactly where the parser in charge has room for them, when
    nothing was typed yet or nothing else fits. *)
Theorem C79_files : forall p (words : list bytes) (c : nat) l,
  well_named p -> (1 <= c < List.length words)%nat -> get (nth 0 words []) (p_subs p) = None ->
  complete p words (Z.of_nat c) true = Some l ->
  let word := nth c words [] in
  let '(r, given) := charge p [] (firstn c words) in
  ~ takes_parameter r (nth (c - 1) words []) -> word <> bs "::file::" ->
  ~ option_of r (bs "::file::") -> ~ action_of r (bs "::file::") -> ~ action_of r word ->
  (forall w, In w (skipn c words) -> ~ action_of r w) ->
  (In (bs "::file::") l <->
   (word = [] \/ forall x, option_of r x \/ action_of r x -> starts_with word x = false) /\
   exists k, p_locs r = Some k /\ room_for_file k (List.length (skipn c words))).
Proof.
  intros p words c l W C G0 H word. unfold complete in H. rewrite pre_check_in in H by exact C.
  pose proof (top_ends p words c l W C G0 H) as E. destruct (charge p [] (firstn c words)) as [r g].
  intros NT NW NO NA NAW NL. destruct E as [[-> A]|(i & c' & pre & IC & SK & LP & M)]; [now destruct NAW|].
  assert (PV := ends_prev words i c c' IC). assert (WD := ends_nth words i c c' (proj1 IC)).
  assert (NP : forall a l0, get (nth (c - 1) words []) (p_opts r) = Some a -> parameter a = Some l0 -> False).
  { intros a l0 G P. apply NT. destruct (a_type a) as [t|] eqn:T.
    - exists a, t. repeat split; try assumption. intros ->.
      assert (X : parameter a = None) by (apply parameter_none; now right). congruence.
    - assert (X : parameter a = None) by (apply parameter_none; now left). congruence. }
  destruct M as [M|[(w & J & Aw) _]]; [|now destruct (NL w J)].
  apply matching_file in M.
  - rewrite WD in M. rewrite M. rewrite names_both.
    rewrite !skipn_length. replace (List.length words - i - c')%nat with (List.length words - c)%nat by lia.
    fold word. split; intros [[Q|Q] R]; (split; [|exact R]); [now left| |now left|]; right; intros x J; apply Q.
    + apply in_or_app. exact J.
    + apply in_app_or in J. exact J.
  - rewrite skipn_length. lia.
  - rewrite names_both. intros J. apply in_app_or in J as [J|J]; contradiction.
  - intros a l'. rewrite PV, get_both. destruct (get _ (p_opts r)) as [a'|].
    + intros G. injection G as ->. exact (NP a l' eq_refl).
    + destruct (get _ (p_subs r)); discriminate.
Qed.
Print Assumptions C79_files.

(** ** no exception *)
Lemma matching_total options locs words : words <> [] ->
  matching options locs words (List.length words - 1) true <> None.
Proof.
  intros N. unfold matching. destruct (get _ options) as [[a|]|]; [destruct (parameter a); [discriminate|]| |].
  all: match goal with |- (if ?m then _ else _) <> _ => destruct m; [discriminate|] end;
    unfold wants_file; destruct locs as [[]|]; try discriminate;
    rewrite ?Nat.leb_refl; try discriminate; destruct (_ <=? _)%nat; discriminate.
Qed.

Lemma action_idx_lt {A} (s : list (bytes * A)) ws i : action_idx s ws = Some i -> (i < List.length ws)%nat.
Proof. intros H. apply action_idx_some in H as (b & w & a & v & -> & <- & _). rewrite app_length. cbn. lia. Qed.
Lemma action_idx_get {A} (s : list (bytes * A)) ws i : action_idx s ws = Some i -> exists v, get (nth i ws []) s = Some v.
Proof.
  intros H. apply action_idx_some in H as (b & w & a & v & -> & <- & G & _). exists v.
  now rewrite app_nth2, Nat.sub_diag by lia.
Qed.

Lemma sub_total p : forall words, words <> [] -> sub_options p words (List.length words - 1) true <> None.
Proof.
  induction p as [o s lo IH] using parser_ind2. intros words N. cbn [sub_options].
  destruct (List.length words =? 2)%nat; [now apply matching_total|].
  destruct (action_idx s words) as [i|] eqn:AI; [|now apply matching_total].
  pose proof (action_idx_lt _ _ _ AI) as LT.
  destruct (Nat.eqb_spec (List.length words - 1) i); [discriminate|].
  destruct (Nat.ltb_spec i (List.length words - 1)) as [L|L]; [|lia].
  rewrite (find_get (fun q => sub_options q (skipn i words) (List.length words - 1 - i) true)).
  destruct (action_idx_get _ _ _ AI) as [q G]. rewrite G.
  replace (List.length words - 1 - i)%nat with (List.length (skipn i words) - 1)%nat by (rewrite skipn_length; lia).
  apply (IH (nth i words []) q); [now apply get_in|].
  intros E. apply (f_equal (@List.length bytes)) in E. rewrite skipn_length in E. cbn in E. lia.
Qed.

(** C79: with the cursor on the last word (or a word count which makes no sense), the
    completion never fails. *)
Theorem C79_no_exception : forall p (words : list bytes) (c : Z),
  (c = -1 \/ c = Z.of_nat (List.length words) - 1 \/ Z.of_nat (List.length words) <= c \/
   c < - Z.of_nat (List.length words))%Z ->
  complete p words c true <> None.
Proof.
  intros p words c H. unfold complete. destruct (pre_check words c) eqn:PC; [|discriminate].
  unfold pre_check in PC. apply andb_prop in PC as [P0 P1]. apply andb_prop in P1 as [P1 P2].
  apply negb_true_iff, Nat.eqb_neq in P0. apply Z.leb_le in P1. apply Z.ltb_lt in P2.
  unfold possible_options.
  set (k := if (c <? 0)%Z then (c + Z.of_nat (List.length words))%Z else c).
  assert (K : k = (Z.of_nat (List.length words) - 1)%Z) by (unfold k; destruct (Z.ltb_spec c 0); lia).
  rewrite K. destruct (Z.ltb_spec (Z.of_nat (List.length words) - 1) 0); [discriminate|].
  destruct (_ || _); [discriminate|].
  replace (Z.to_nat (Z.of_nat (List.length words) - 1)) with (List.length words - 1)%nat by lia.
  assert (N : words <> []) by (intros ->; now apply P0).
  destruct (List.length words =? 2)%nat; [now apply matching_total|].
  destruct (action_idx (p_subs p) words) as [i|] eqn:AI; [|now apply matching_total].
  pose proof (action_idx_lt _ _ _ AI) as LT.
  destruct (Nat.eqb_spec (List.length words - 1) i); [discriminate|].
  destruct (Nat.ltb_spec i (List.length words - 1)) as [L|L]; [|lia].
  destruct (action_idx_get _ _ _ AI) as [q G]. rewrite G.
  replace (List.length words - 1 - i)%nat with (List.length (skipn i words) - 1)%nat by (rewrite skipn_length; lia).
  apply sub_total. intros E. apply (f_equal (@List.length bytes)) in E. rewrite skipn_length in E. cbn in E. lia.
Qed.
Print Assumptions C79_no_exception.

(** C79: the first word, the name of the program, stays; and an index below zero counts
    from the end. *)
Theorem C79_first_word : forall p w (words : list bytes) u, complete p (w :: words) 0 u = Some [w].
Proof. intros p w words u. unfold complete, pre_check, possible_options. cbn -[Z.of_nat]. 
  rewrite (proj2 (Z.leb_le _ _)), (proj2 (Z.ltb_lt _ _)) by lia. cbn [andb]. now rewrite orb_true_r.
Qed.
Print Assumptions C79_first_word.
Theorem C79_from_the_end : forall p (words : list bytes) (c : Z) u,
  (- Z.of_nat (List.length words) <= c < 0)%Z -> complete p words c u = complete p words (c + Z.of_nat (List.length words)) u.
Proof.
  intros p words c u C. unfold complete.
  assert (P : pre_check words c = pre_check words (c + Z.of_nat (List.length words))).
  { unfold pre_check. f_equal.
    rewrite (proj2 (Z.leb_le _ _)), (proj2 (Z.ltb_lt _ _)), (proj2 (Z.leb_le _ _)), (proj2 (Z.ltb_lt _ _)) by lia. reflexivity. }
  rewrite <- P. destruct (pre_check words c); [|reflexivity]. unfold possible_options.
  destruct (Z.ltb_spec c 0); [|lia]. destruct (Z.ltb_spec (c + Z.of_nat (List.length words)) 0); [lia|].
  destruct (Z.ltb_spec (c + Z.of_nat (List.length words)) 0); [lia|]. reflexivity.
Qed.
Print Assumptions C79_from_the_end.

(** ** a small command line: an excerpt of the one of rdiff-backup *)
Definition flag : action := mk_action None [] None.
Definition text : action := mk_action (Some TStr) [] None.
Definition cli : parser :=
  Parser [(bs "--help", flag); (bs "--tempdir", text); (bs "--verbosity", mk_action (Some TOther) [bs "0"; bs "3"; bs "9"] None);
          (bs "--version", flag)]
    [(bs "backup", Parser [(bs "--exclude", text); (bs "--include", text); (bs "--include-filelist", mk_action (Some TStr) [] (Some (bs "LIST_FILE")))] [] (Some (NNum 2)));
     (bs "list", Parser [(bs "--help", flag)]
        [(bs "files", Parser [(bs "--at", text); (bs "--changed-since", text)] [] (Some (NNum 1)));
         (bs "increments", Parser [(bs "--no-size", flag); (bs "--size", flag)] [] (Some (NNum 1)))] None)] None.

Lemma cli_well_named : well_named cli.
Proof.
  unfold cli. constructor. intros n q [E|[E|[]]]; injection E as <- <-; (split; [|reflexivity]); constructor; [easy|].
  intros n q [E|[E|[]]]; injection E as <- <-; (split; [|reflexivity]); constructor; easy.
Qed.

(** Exceptions. *)
(** Without --unique the completion of anything but a parameter fails. *)
Theorem C79_no_unique_refuted : forall p w0 w, get w0 (p_opts p) = None -> complete p [w0; w] 1 false = None.
Proof.
  intros p w0 w G. unfold complete, possible_options. cbn [pre_check List.length].
  destruct p as [o s lo]. cbn [p_opts p_subs p_locs] in *. cbn -[matching as_opts as_subs].
  unfold matching. change (Pos.to_nat 1 - 1)%nat with 0%nat. cbn [nth]. rewrite get_both, G.
  destruct (get w0 s); reflexivity.
Qed.
Print Assumptions C79_no_unique_refuted.

(** With the cursor between an action and its sub-action the completion fails. *)
Theorem C79_cursor_in_the_middle_refuted :
  complete cli [bs "rdiff-backup"; bs "list"; bs "--h"; bs "files"] 2 true = None.
Proof. vm_compute. reflexivity. Qed.
Print Assumptions C79_cursor_in_the_middle_refuted.

(** The values of a parameter are offered whatever was typed of it already. *)
Theorem C79_values_not_filtered_refuted :
  complete cli [bs "rdiff-backup"; bs "--verbosity"; bs "9"] 2 true = Some [bs "0"; bs "3"; bs "9"].
Proof. vm_compute. reflexivity. Qed.
Print Assumptions C79_values_not_filtered_refuted.

(** Options which may be repeated are offered once only. *)
Theorem C79_repeated_options_refuted :
  complete cli [bs "rdiff-backup"; bs "backup"; bs "--include"; bs "a"; bs "--incl"] 4 true
  = Some [bs "--include-filelist"].
Proof. vm_compute. reflexivity. Qed.
Print Assumptions C79_repeated_options_refuted.

(** A value which is the name of an action counts as this action. *)
Theorem C79_value_taken_for_action_refuted :
  complete cli [bs "rdiff-backup"; bs "--tempdir"; bs "backup"; bs "li"] 3 true = Some [bs "::file::"].
Proof. vm_compute. reflexivity. Qed.
Print Assumptions C79_value_taken_for_action_refuted.

(** With room for at most one file, the completion of a word before the last one fails
    when no option fits. *)
Theorem C79_optional_location_refuted : forall o w0 w1 w2,
  get w0 o = None -> (w1 = [] \/ forall x, In x (map fst o) -> starts_with w1 x = false) ->
  complete (Parser o [] (Some NOpt)) [w0; w1; w2] 1 true = None.
Proof.
  intros o w0 w1 w2 G NM. unfold complete, possible_options. cbn [pre_check List.length]. cbn -[matching as_opts as_subs].
  unfold matching. change (Pos.to_nat 1 - 1)%nat with 0%nat. change (Pos.to_nat 1) with 1%nat. cbn [nth].
  rewrite get_both, G, names_both. cbn [get map]. rewrite app_nil_r. cbn [List.length wants_file]. cbn [Nat.sub Nat.leb].
  destruct w1 as [|b w1]; [reflexivity|]. destruct NM as [NM|NM]; [discriminate|].
  assert (F : filter (starts_with (b :: w1)) (map fst o) = []).
  { clear G. induction (map fst o) as [|y q IH]; [reflexivity|]. cbn [filter]. rewrite (NM y (or_introl eq_refl)).
    apply IH. intros x J. apply NM. now right. }
  now rewrite F.
Qed.
Print Assumptions C79_optional_location_refuted.

Example C79_example :
  get (bs "rdiff-backup") (p_subs cli) = None /\
  complete cli [bs "rdiff-backup"; bs ""] 1 true
  = Some [bs "backup"; bs "--help"; bs "list"; bs "--tempdir"; bs "--verbosity"; bs "--version"] /\
  complete cli [bs "rdiff-backup"; bs "--ver"] 1 true = Some [bs "--verbosity"; bs "--version"] /\
  complete cli [bs "rdiff-backup"; bs "--version"; bs "list"; bs "files"; bs "--at"; bs "now"; bs "--"] 6 true
  = Some [bs "--changed-since"] /\
  complete cli [bs "rdiff-backup"; bs "backup"; bs "--include-filelist"; bs "x"] 3 true = Some [bs "::file::"] /\
  complete cli [bs "rdiff-backup"; bs "backup"; bs "a"; bs "b"] (-1) true = Some [bs "::file::"] /\
  fst (charge cli [] [bs "rdiff-backup"; bs "--version"; bs "list"; bs "files"; bs "--at"; bs "now"])
  = Parser [(bs "--at", text); (bs "--changed-since", text)] [] (Some (NNum 1)).
Proof. repeat split; vm_compute; reflexivity. Qed.

Example C79_files_example :
  complete cli [bs "rdiff-backup"; bs "backup"; bs "x"; bs "b"] 2 true = Some [bs "::file::"] /\
  complete cli [bs "rdiff-backup"; bs "backup"; bs "x"; bs "b"; bs "c"] 2 true = Some [] /\
  complete cli [bs "rdiff-backup"; bs "backup"; []; bs "b"] 2 true
  = Some [bs "--exclude"; bs "--include"; bs "--include-filelist"; bs "::file::"].
Proof. repeat split; vm_compute; reflexivity. Qed.
