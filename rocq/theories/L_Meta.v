(** Lemmas about FlatExtractor *)
From Coq Require Import List ZArith Bool Ascii Lia Sorting.Sorted.
From Verif Require Import Base L_Base M_Quoting M_Iter L_Iter M_Rorp M_Meta.
Import List ListNotations.

(** lines of text *)
Definition text (ls : list bytes) : bytes := concat (map (fun l => l ++ [nl]) ls).
Lemma text_cons l ls : text (l :: ls) = l ++ nl :: text ls.
Proof. unfold text. cbn [map concat]. now rewrite <- app_assoc. Qed.
Lemma text_app a b : text (a ++ b) = text a ++ text b.
Proof. unfold text. now rewrite map_app, concat_app. Qed.
Definition one_line (l : bytes) : Prop := ~ In nl l.

(** a record: a header line and other lines *)
Local Notation record := (bytes * list bytes)%type.
Definition rec_lines (r : record) : list bytes := fst r :: snd r.
Definition rec_text (r : record) : bytes := text (rec_lines r).
Definition recs_text (l : list record) : bytes := concat (map rec_text l).

Lemma skipn_plus {A} (pre s : list A) k : skipn (length pre + k) (pre ++ s) = skipn k s.
Proof. induction pre; [reflexivity|assumption]. Qed.

Section Flat.
Variable hdr : bytes.
Hypothesis hdr_ne : hdr <> [].
Hypothesis hdr_nl : ~ In nl hdr.
Context {Ob : Type}.
Variable nti : bytes -> idx.
Variable parse : bytes -> option Ob.
Variable index_of : Ob -> idx.
Variable size : nat -> nat.
Hypothesis size_pos : forall n, 0 < size n.

Notation header_at := (header_at hdr).
Notation search := (search hdr).
Notation search_nl := (search_nl hdr).
Notation search_from_1 := (search_from_1 hdr).

Definition shift (k : nat) (o : option (nat * bytes)) : option (nat * bytes) :=
  option_map (fun '(p, n) => (k + p, n)) o.
Lemma shift_shift a b o : shift a (shift b o) = shift (a + b) o.
Proof using All. destruct o as [[p n]|]; cbn; [|reflexivity]. do 2 f_equal. lia. Qed.
Lemma shift_1 o : option_map (fun '(p, n) => (S p, n)) o = shift 1 o.
Proof using All. reflexivity. Qed.
Lemma shift_0 o : shift 0 o = o.
Proof using All. now destruct o as [[p n]|]. Qed.

Lemma starts_with_line p l s : ~ In nl p -> starts_with p (l ++ nl :: s) = starts_with p l.
Proof using All.
  revert l. induction p as [|c p IH]; intros l Hp; [reflexivity|].
  destruct l as [|d l]; cbn [app starts_with].
  - destruct (Ascii.eqb_spec c nl) as [->|]; [exfalso; apply Hp; now left|reflexivity].
  - destruct (Ascii.eqb c d); cbn; [|reflexivity]. apply IH. intros H. apply Hp. now right.
Qed.

Lemma header_at_line l s : one_line l ->
  header_at (l ++ nl :: s) = if starts_with hdr l then Some (skipn (length hdr) l) else None.
Proof using All.
  intros Hl. unfold M_Meta.header_at. rewrite starts_with_line by assumption.
  destruct (starts_with hdr l) eqn:E; [|reflexivity].
  apply starts_with_spec in E as [t ->]. rewrite <- app_assoc. 
  rewrite (skipn_app (length hdr) hdr (t ++ nl :: s)), (skipn_app (length hdr) hdr t), !skipn_all, !Nat.sub_diag.
  rewrite !skipn_O. cbn [app].
  rewrite break_on_app; [reflexivity|]. intros H. apply Hl. apply in_or_app. now right.
Qed.

Lemma search_nl_line l s : one_line l -> search_nl (l ++ nl :: s) = shift (S (length l)) (search s).
Proof using All.
  intros Hl. induction l as [|c l IH].
  - cbn [app M_Meta.search_nl]. rewrite Ascii.eqb_refl. unfold M_Meta.search. destruct (header_at s); reflexivity.
  - cbn [app M_Meta.search_nl]. destruct (Ascii.eqb_spec c nl) as [->|]; [exfalso; apply Hl; now left|].
    rewrite IH by (intros H; apply Hl; now right). rewrite shift_1, shift_shift. reflexivity.
Qed.
Lemma search_line l s : one_line l ->
  search (l ++ nl :: s) = if starts_with hdr l then Some (0, skipn (length hdr) l)
                          else shift (S (length l)) (search s).
Proof using All.
  intros Hl. unfold M_Meta.search at 1. rewrite header_at_line by assumption.
  destruct (starts_with hdr l); [reflexivity|]. now apply search_nl_line.
Qed.
Lemma search_from_1_line l s : one_line l -> l <> [] ->
  search_from_1 (l ++ nl :: s) = shift (S (length l)) (search s).
Proof using All.
  intros Hl Hn. destruct l as [|c l]; [congruence|]. cbn [app M_Meta.search_from_1].
  rewrite search_nl_line by (intros H; apply Hl; now right). rewrite shift_1, shift_shift. reflexivity.
Qed.
Lemma header_at_nil : header_at [] = None.
Proof using All. unfold M_Meta.header_at. destruct hdr; [congruence|reflexivity]. Qed.
Lemma search_nil : search [] = None.
Proof using All. unfold M_Meta.search. now rewrite header_at_nil. Qed.

(** a match stays the same when the buffer grows *)
Lemma header_at_nl s : header_at s <> None -> In nl s.
Proof using All.
  unfold M_Meta.header_at. destruct (starts_with hdr s); [|congruence].
  destruct (break_on nl (skipn (length hdr) s)) as [n [r|]] eqn:E; [|congruence]. intros _.
  rewrite <- (firstn_skipn (length hdr) s). apply in_or_app. right.
  destruct (in_dec ascii_dec nl (skipn (length hdr) s)) as [H|H]; [assumption|].
  rewrite break_on_nosep in E by assumption. congruence.
Qed.
Lemma search_nl_nl s x : search_nl s = Some x -> exists a b, s = a ++ nl :: b /\ In nl b.
Proof using All.
  revert x. induction s as [|c s IH]; intros x; cbn [M_Meta.search_nl]; [discriminate|].
  destruct (Ascii.eqb_spec c nl) as [->|].
  - destruct (header_at s) eqn:E.
    + intros _. exists [], s. split; [reflexivity|]. apply header_at_nl. congruence.
    + destruct (search_nl s) as [y|]; [|discriminate]. destruct (IH y eq_refl) as (a & b & -> & H).
      intros _. exists (nl :: a), b. split; [reflexivity|assumption].
  - destruct (search_nl s) as [y|]; [|discriminate]. destruct (IH y eq_refl) as (a & b & -> & H).
    intros _. exists (c :: a), b. split; [reflexivity|assumption].
Qed.
Lemma first_nl s : In nl s -> exists l r, s = l ++ nl :: r /\ one_line l.
Proof using All.
  induction s as [|c s IH]; intros H; [destruct H|].
  destruct (ascii_dec c nl) as [->|Hc]; [exists [], s; split; [reflexivity|intros []]|].
  destruct H as [H|H]; [congruence|]. destruct (IH H) as (l & r & -> & Hl).
  exists (c :: l), r. split; [reflexivity|]. intros [?|?]; [congruence|now apply Hl].
Qed.
Lemma header_at_ext s t : In nl s -> header_at (s ++ t) = header_at s.
Proof using All.
  intros H. apply first_nl in H as (l & r & -> & Hl). rewrite <- app_assoc. cbn. now rewrite !header_at_line.
Qed.
Lemma search_nl_ext s t x : search_nl s = Some x -> search_nl (s ++ t) = Some x.
Proof using All.
  revert x. induction s as [|c s IH]; intros x; cbn [M_Meta.search_nl app]; [discriminate|].
  destruct (Ascii.eqb_spec c nl) as [->|].
  - destruct (header_at s) eqn:E.
    + intros <-. rewrite header_at_ext by (apply header_at_nl; congruence). now rewrite E.
    + destruct (search_nl s) as [y|] eqn:E2; [|discriminate]. cbn. intros <-.
      destruct (search_nl_nl _ _ E2) as (a & b & E3 & Hb).
      rewrite header_at_ext by (rewrite E3; apply in_or_app; right; now left).
      rewrite E. now rewrite (IH y eq_refl).
  - destruct (search_nl s) as [y|] eqn:E2; [|discriminate]. cbn. intros <-. now rewrite (IH y eq_refl).
Qed.
Lemma search_from_1_ext s t x : search_from_1 s = Some x -> search_from_1 (s ++ t) = Some x.
Proof using All.
  destruct s as [|c s]; cbn; [discriminate|]. destruct (search_nl s) as [y|] eqn:E; [|discriminate].
  now rewrite (search_nl_ext s t y E).
Qed.
Lemma search_nl_pos s p n : search_nl s = Some (p, n) -> p <= length s.
Proof using All.
  revert p n. induction s as [|c s IH]; intros p n; cbn [M_Meta.search_nl M_Meta.search_from_1]; [discriminate|].
  destruct (if Ascii.eqb c nl then header_at s else None); [intros [= <- <-]; cbn; lia|].
  destruct (search_nl s) as [[q m]|] eqn:E; [|discriminate]. cbn. intros [= <- <-].
  specialize (IH q m eq_refl). cbn. lia.
Qed.
Lemma search_from_1_pos s p n : search_from_1 s = Some (p, n) -> p <= length s.
Proof using All.
  destruct s as [|c s]; cbn [M_Meta.search_nl M_Meta.search_from_1]; [discriminate|]. destruct (search_nl s) as [[q m]|] eqn:E; [|discriminate].
  cbn. intros [= <- <-]. apply search_nl_pos in E. cbn. lia.
Qed.

(** the next position doesn't depend on the blocks *)
Lemma get_next_pos_spec fuel (buf : bytes) f : length (fo_rest f) <= fuel ->
  exists p ae buf' f', get_next_pos hdr size fuel (buf, f) = (p, ae, (buf', f'))
  /\ buf' ++ fo_rest f' = buf ++ fo_rest f
  /\ match search_from_1 (buf ++ fo_rest f) with
     | Some (q, _) => p = q /\ ae = false /\ p <= length buf'
     | None => ae = true /\ p = length buf' /\ fo_rest f' = []
     end.
Proof using All.
  revert buf f. induction fuel as [|fuel IH]; intros buf f Hf; cbn [get_next_pos].
  - destruct f as [rest k]. cbn [fo_rest] in *. assert (rest = []) as -> by (destruct rest; [reflexivity|cbn in Hf; lia]).
    rewrite app_nil_r. destruct (search_from_1 buf) as [[p n]|] eqn:E.
    + repeat eexists; [now rewrite app_nil_r|]. eapply search_from_1_pos; eassumption.
    + cbn. rewrite firstn_nil, skipn_nil. repeat eexists; cbn; now rewrite ?app_nil_r.
  - destruct (search_from_1 buf) as [[p n]|] eqn:E.
    + rewrite (search_from_1_ext _ (fo_rest f) _ E). repeat eexists. eapply search_from_1_pos; eassumption.
    + destruct f as [rest k]. cbn [fread fo_rest fo_reads].
      destruct (firstn (size k) rest) as [|c b] eqn:Eb.
      * assert (rest = []) as ->.
        { destruct rest; [reflexivity|]. specialize (size_pos k). destruct (size k); [lia|cbn in Eb; congruence]. }
        rewrite app_nil_r, E. rewrite skipn_nil. repeat eexists; cbn; now rewrite ?app_nil_r.
      * destruct (IH (buf ++ c :: b) (mk_fobj (skipn (size k) rest) (S k))) as (p & ae & buf' & f' & H1 & H2 & H3).
        { cbn [fo_rest]. cbn [fo_rest] in Hf. rewrite skipn_length.
          assert (0 < length (firstn (size k) rest)) by (rewrite Eb; cbn; lia). rewrite firstn_length in H. lia. }
        cbn [fo_rest] in *. rewrite <- app_assoc, <- Eb, firstn_skipn in *.
        exists p, ae, buf', f'. auto.
Qed.
Lemma next_pos_spec (buf : bytes) f :
  exists p ae buf' f', next_pos hdr size (buf, f) = (p, ae, (buf', f'))
  /\ buf' ++ fo_rest f' = buf ++ fo_rest f
  /\ match search_from_1 (buf ++ fo_rest f) with
     | Some (q, _) => p = q /\ ae = false /\ p <= length buf'
     | None => ae = true /\ p = length buf' /\ fo_rest f' = []
     end.
Proof using All. apply get_next_pos_spec. reflexivity. Qed.

(** ** records *)
Definition is_record (r : record) : Prop :=
  starts_with hdr (fst r) = true /\ one_line (fst r)
  /\ Forall (fun l => one_line l /\ starts_with hdr l = false) (snd r).

Lemma search_body ls s : Forall (fun l => one_line l /\ starts_with hdr l = false) ls ->
  search (text ls ++ s) = shift (length (text ls)) (search s).
Proof using All.
  induction 1 as [|l ls [H1 H2] HF IH]; [now rewrite shift_0|].
  rewrite text_cons, <- app_assoc. cbn [app]. rewrite search_line, H2, IH by assumption.
  rewrite shift_shift, !app_length. cbn. f_equal. lia.
Qed.
Lemma header_ne r : is_record r -> fst r <> [].
Proof using All.
  intros (H & _) E. rewrite E in H. destruct hdr; [congruence|discriminate].
Qed.
Lemma search_rec r s : is_record r -> search_from_1 (rec_text r ++ s) = shift (length (rec_text r)) (search s).
Proof using All.
  intros H. pose proof (header_ne r H) as Hne. destruct H as (H1 & H2 & H3).
  unfold rec_text, rec_lines. rewrite text_cons, <- app_assoc. cbn [app].
  rewrite search_from_1_line, search_body, shift_shift by assumption. rewrite app_length. cbn. f_equal. lia.
Qed.
Lemma search_recs l : Forall is_record l ->
  search (recs_text l) = match l with [] => None | r :: _ => Some (0, skipn (length hdr) (fst r)) end.
Proof using All.
  intros H. destruct H as [|r l (H1 & H2 & H3) _]; [apply search_nil|].
  unfold recs_text. cbn [map concat]. unfold rec_text at 1, rec_lines. rewrite text_cons, <- app_assoc. cbn [app].
  now rewrite search_line, H1.
Qed.
Lemma next_rec r l (buf : bytes) f : is_record r -> Forall is_record l -> buf ++ fo_rest f = recs_text (r :: l) ->
  exists p buf' f', next_pos hdr size (buf, f) = (p, match l with [] => true | _ => false end, (buf', f'))
  /\ firstn p buf' = rec_text r /\ skipn p buf' ++ fo_rest f' = recs_text l.
Proof using All.
  intros Hr Hl E. destruct (next_pos_spec buf f) as (p & ae & buf' & f' & H1 & H2 & H3).
  rewrite E in H2, H3. cbn [recs_text map concat] in H2, H3.
  change (concat (map rec_text l)) with (recs_text l) in *.
  change (recs_text (r :: l)) with (rec_text r ++ recs_text l) in *.
  rewrite search_rec, search_recs in H3 by assumption.
  destruct l as [|r2 l].
  - cbn in H3. destruct H3 as (-> & -> & H3). exists (length buf'), buf', f'. split; [assumption|].
    rewrite H3 in *. rewrite app_nil_r in H2. cbn in H2. rewrite app_nil_r in H2. subst buf'.
    now rewrite firstn_all, skipn_all.
  - cbn [shift option_map] in H3. destruct H3 as (-> & -> & H3). rewrite Nat.add_0_r in *.
    exists (length (rec_text r)), buf', f'. split; [assumption|].
    assert (Hb : exists t, buf' = rec_text r ++ t).
    { exists (skipn (length (rec_text r)) buf'). rewrite <- (firstn_skipn (length (rec_text r)) buf') at 1. f_equal.
      apply (f_equal (firstn (length (rec_text r)))) in H2. rewrite !firstn_app, Nat.sub_diag, firstn_all in H2.
      replace (length (rec_text r) - length buf') with 0 in H2 by lia. cbn in H2. now rewrite !app_nil_r in H2. }
    destruct Hb as [t ->]. rewrite firstn_app, firstn_all, Nat.sub_diag. cbn. rewrite app_nil_r.
    rewrite skipn_app, skipn_all, Nat.sub_diag. cbn. split; [reflexivity|].
    rewrite <- app_assoc in H2. now apply app_inv_head in H2.
Qed.
Lemma rec_text_ne r : is_record r -> rec_text r <> [].
Proof using All. intros _. unfold rec_text, rec_lines. rewrite text_cons. now destruct (fst r). Qed.

Fixpoint ends {A} (l : list A) : list (A * bool) :=
  match l with [] => [] | [x] => [(x, true)] | x :: r => (x, false) :: ends r end.
Lemma records_spec l : Forall is_record l -> forall fuel (buf : bytes) f, length l < fuel ->
  buf ++ fo_rest f = recs_text l ->
  records hdr size fuel (buf, f) = ends (map rec_text l).
Proof using All.
  induction 1 as [|r l Hr Hl IH]; intros fuel buf f Hf E; (destruct fuel as [|fuel]; [cbn in Hf; lia|]); cbn [records].
  - destruct (next_pos_spec buf f) as (p & ae & buf' & f' & H1 & H2 & H3). rewrite H1.
    rewrite E in H2, H3. cbn in H3. destruct H3 as (-> & -> & H3). rewrite H3, app_nil_r in H2. cbn in H2. now subst buf'.
  - destruct (next_rec r l buf f Hr Hl E) as (p & buf' & f' & H1 & H2 & H3). rewrite H1.
    destruct l as [|r2 l].
    + destruct (Nat.eqb_spec p 0) as [->|]; [|cbn; now rewrite H2].
      cbn in H2. exfalso. now apply (rec_text_ne r Hr).
    + rewrite H2, (IH fuel _ _) by (cbn in Hf |- *; auto; lia). reflexivity.
Qed.

Fixpoint parsed (l : list record) : list Ob :=
  match l with
  | [] => []
  | r :: l' => match parse (rec_text r) with Some o => o :: parsed l' | None => parsed l' end
  end.
Lemma iterate_objs_ends l : iterate_objs parse (ends (map rec_text l)) = parsed l.
Proof using All.
  induction l as [|r l IH]; [reflexivity|]. destruct l as [|r2 l].
  - cbn. now destruct (parse (rec_text r)).
  - change (ends (map rec_text (r :: r2 :: l))) with ((rec_text r, false) :: ends (map rec_text (r2 :: l))).
    cbn [iterate_objs]. rewrite IH. reflexivity.
Qed.
Lemma recs_length l : length l <= length (recs_text l).
Proof using All.
  induction l as [|r l IH]; [cbn; lia|]. change (recs_text (r :: l)) with (rec_text r ++ recs_text l). rewrite app_length.
  assert (0 < length (rec_text r)); [|cbn [length]; lia].
  unfold rec_text, rec_lines. rewrite text_cons, app_length. cbn. lia.
Qed.
Lemma iterate_spec l : Forall is_record l -> iterate hdr parse size (recs_text l) = parsed l.
Proof using All.
  intros H. unfold iterate. rewrite (records_spec l H); [apply iterate_objs_ends| |reflexivity].
  pose proof (recs_length l). lia.
Qed.

(** ** skipping *)
Fixpoint first_ge (index : idx) (ls : list bytes) : list bytes :=
  match ls with
  | [] => []
  | l :: r => if starts_with hdr l && negb (idx_ltb (nti (skipn (length hdr) l)) index) then ls
              else first_ge index r
  end.
Notation skip_in_buf := (skip_in_buf hdr nti).
Lemma skip_shift fuel index pre s : search (pre ++ s) = shift (length pre) (search s) ->
  skip_in_buf fuel index (pre ++ s) = skip_in_buf fuel index s.
Proof using All.
  destruct fuel as [|fuel]; [reflexivity|]. intros E. cbn [M_Meta.skip_in_buf]. rewrite E.
  destruct (search s) as [[p n]|]; [|reflexivity]. cbn [shift option_map].
  replace (length pre + p + length hdr + length n) with (length pre + (p + length hdr + length n)) by lia.
  rewrite !skipn_plus. reflexivity.
Qed.
Lemma skip_nl fuel index s : skip_in_buf fuel index (nl :: s) = skip_in_buf fuel index s.
Proof using All.
  apply (skip_shift fuel index [nl] s). cbn [app]. change (nl :: s) with ([] ++ nl :: s).
  rewrite search_line by (intros []). destruct hdr; [congruence|reflexivity].
Qed.
Definition ne_some (ls : list bytes) : option bytes := match ls with [] => None | _ => Some (text ls) end.
Lemma skip_in_buf_spec index ls : Forall one_line ls -> forall fuel, length ls < fuel ->
  skip_in_buf fuel index (text ls) = ne_some (first_ge index ls).
Proof using All.
  induction 1 as [|l ls Hl HF IH]; intros fuel Hf; (destruct fuel as [|fuel]; [cbn in Hf; lia|]).
  - cbn [text map concat M_Meta.skip_in_buf]. now rewrite search_nil.
  - cbn [first_ge]. destruct (starts_with hdr l) eqn:E; cbn [andb].
    + cbn [M_Meta.skip_in_buf]. rewrite text_cons, search_line, E by assumption.
      destruct (idx_ltb (nti (skipn (length hdr) l)) index); cbn [negb].
      * rewrite Nat.add_0_l. replace (length hdr + length (skipn (length hdr) l)) with (length l).
        -- rewrite skipn_app, skipn_all, Nat.sub_diag. cbn [skipn app]. rewrite skip_nl. apply IH. cbn in Hf. lia.
        -- apply starts_with_spec in E as [t ->]. rewrite skipn_app, skipn_all, Nat.sub_diag, app_length. reflexivity.
      * cbn [skipn ne_some]. now rewrite text_cons.
    + rewrite text_cons. change (nl :: text ls) with ([nl] ++ text ls). rewrite app_assoc.
      rewrite skip_shift; [apply IH; cbn in Hf; lia|].
      rewrite <- app_assoc. cbn [app]. rewrite search_line, E by assumption. rewrite app_length. cbn. f_equal. lia.
Qed.
Lemma first_ge_app index a b : first_ge index (a ++ b) =
  match first_ge index a with [] => first_ge index b | _ => first_ge index a ++ b end.
Proof using All.
  induction a as [|l a IH]; [reflexivity|]. cbn [app first_ge].
  destruct (starts_with hdr l && _); [reflexivity|exact IH].
Qed.
(** a block and the rest of the line *)
Lemma read_lines n ls : 0 < n -> ls <> [] -> Forall one_line ls ->
  exists l1 l2, ls = l1 ++ l2 /\ l1 <> []
    /\ firstn n (text ls) ++ fst (freadline (mk_fobj (skipn n (text ls)) 0)) = text l1
    /\ fo_rest (snd (freadline (mk_fobj (skipn n (text ls)) 0))) = text l2.
Proof using All.
  revert n. induction ls as [|l ls IH]; intros n Hn Hne HF; [congruence|].
  inversion HF as [|? ? Hl HF']; subst. rewrite text_cons.
  destruct (le_lt_dec n (length l)) as [H|H].
  - exists [l], ls. split; [reflexivity|]. split; [discriminate|].
    rewrite firstn_app, skipn_app. replace (n - length l) with 0 by lia. cbn [firstn skipn]. rewrite app_nil_r.
    unfold freadline. cbn [fo_rest fo_reads].
    rewrite break_on_app; [|intros Hi; apply Hl; rewrite <- (firstn_skipn n l); apply in_or_app; now right].
    cbn. split; [|reflexivity]. now rewrite app_nil_r, app_assoc, firstn_skipn.
  - rewrite firstn_app, skipn_app, firstn_all2, skipn_all2 by lia.
    destruct (n - length l) as [|m] eqn:Em; [lia|]. cbn [firstn skipn app].
    destruct ls as [|l' ls].
    + exists [l], []. split; [reflexivity|]. split; [discriminate|]. rewrite firstn_nil, skipn_nil.
      cbn. rewrite app_nil_r. split; reflexivity.
    + destruct m as [|m].
      * exists (l :: [l']), ls. split; [reflexivity|]. split; [discriminate|].
        cbn [firstn skipn]. rewrite (text_cons l' ls). unfold freadline. cbn [fo_rest fo_reads].
        inversion HF' as [|? ? Hl' ?]; subst. rewrite break_on_app by assumption.
        cbn. split; [|reflexivity]. now rewrite !app_nil_r, <- !app_assoc.
      * destruct (IH (S m)) as (l1 & l2 & E1 & E2 & E3 & E4); [lia|discriminate|assumption|].
        exists (l :: l1), l2. split; [cbn; now rewrite E1|]. split; [discriminate|].
        rewrite (text_cons l l1), <- E3, <- app_assoc. cbn [app]. split; [reflexivity|assumption].
Qed.
Lemma freadline_reads r k : freadline (mk_fobj r k) = (fst (freadline (mk_fobj r 0)), mk_fobj (fo_rest (snd (freadline (mk_fobj r 0)))) k).
Proof using All. unfold freadline. cbn [fo_rest fo_reads]. destruct (break_on nl r) as [l [x|]]; reflexivity. Qed.
Lemma text_length ls : length ls <= length (text ls).
Proof using All. induction ls as [|l ls IH]; [cbn; lia|]. rewrite text_cons, app_length. cbn. lia. Qed.
Lemma text_nil ls : text ls = [] -> ls = [].
Proof using All. destruct ls as [|l ls]; [reflexivity|]. rewrite text_cons. now destruct l. Qed.

Lemma skip_to_index_spec index fuel : forall ls k, Forall one_line ls -> length ls < fuel ->
  match skip_to_index hdr nti size fuel index (mk_fobj (text ls) k) with
  | None => first_ge index ls = []
  | Some (buf, f) => first_ge index ls <> [] /\ buf ++ fo_rest f = text (first_ge index ls)
  end.
Proof using All.
  induction fuel as [|fuel IH]; intros ls k HF Hf; [cbn in Hf; lia|]. cbn [skip_to_index].
  cbn [fread fo_rest fo_reads]. destruct ls as [|l ls'].
  { cbn [text map concat]. rewrite firstn_nil, skipn_nil. cbn. reflexivity. }
  set (ls := l :: ls') in *.
  destruct (read_lines (size k) ls (size_pos k)) as (l1 & l2 & E1 & E2 & E3 & E4); [discriminate|assumption|].
  rewrite freadline_reads. rewrite E3, E4.
  destruct (text l1) as [|c t] eqn:Et; [exfalso; now apply E2, text_nil|]. rewrite <- Et.
  rewrite E1 in HF. apply Forall_app in HF as [HF1 HF2].
  rewrite skip_in_buf_spec by (auto; pose proof (text_length l1); lia).
  rewrite E1, first_ge_app. destruct (first_ge index l1) as [|x y] eqn:Eg; cbn [ne_some].
  - apply IH; [assumption|]. apply (f_equal (@length _)) in E1. rewrite app_length in E1.
    destruct l1; [congruence|]. cbn in E1. unfold ls in *. cbn in Hf, E1. lia.
  - cbn [fo_rest]. split; [discriminate|]. now rewrite text_app.
Qed.

Definition rec_index (r : record) : idx := nti (skipn (length hdr) (fst r)).
Fixpoint drop_lt (index : idx) (l : list record) : list record :=
  match l with
  | [] => []
  | r :: l' => if idx_ltb (rec_index r) index then drop_lt index l' else l
  end.
Definition recs_lines (l : list record) : list bytes := flat_map rec_lines l.
Lemma recs_text_lines l : recs_text l = text (recs_lines l).
Proof using All.
  induction l as [|r l IH]; [reflexivity|]. unfold recs_text, recs_lines in *. cbn [map concat flat_map].
  rewrite IH. unfold rec_text. now rewrite text_app.
Qed.
Lemma first_ge_recs index l : Forall is_record l -> first_ge index (recs_lines l) = recs_lines (drop_lt index l).
Proof using All.
  induction 1 as [|r l (H1 & H2 & H3) HF IH]; [reflexivity|].
  change (recs_lines (r :: l)) with (rec_lines r ++ recs_lines l) at 1.
  unfold rec_lines. cbn [app first_ge drop_lt]. unfold rec_index. rewrite H1. cbn [andb].
  destruct (idx_ltb (nti (skipn (length hdr) (fst r))) index); cbn [negb]; [|reflexivity].
  rewrite <- IH. clear - H3. induction H3 as [|x s [_ H] _ IH]; [reflexivity|]. cbn [app first_ge]. now rewrite H.
Qed.
Lemma recs_one_line l : Forall is_record l -> Forall one_line (recs_lines l).
Proof using All.
  induction 1 as [|r l (H1 & H2 & H3) HF IH]; [constructor|]. unfold recs_lines. cbn [flat_map].
  apply Forall_app. split; [|assumption]. constructor; [assumption|].
  eapply Forall_impl; [|exact H3]. intros ? [? _]. assumption.
Qed.

Fixpoint take_objs (index : idx) (l : list record) : list Ob :=
  match l with
  | [] => []
  | r :: l' =>
      match parse (rec_text r) with
      | None => take_objs index l'
      | Some o => if is_prefix index (index_of o) then o :: take_objs index l' else []
      end
  end.
Lemma starting_loop_spec index l : Forall is_record l -> forall fuel (buf : bytes) f, length l <= fuel -> l <> [] ->
  buf ++ fo_rest f = recs_text l ->
  starting_loop hdr parse index_of size fuel index (buf, f) = take_objs index l.
Proof using All.
  induction 1 as [|r l Hr Hl IH]; intros fuel buf f Hf Hne E; [congruence|].
  destruct fuel as [|fuel]; [cbn in Hf; lia|]. cbn [starting_loop].
  destruct (next_rec r l buf f Hr Hl E) as (p & buf' & f' & H1 & H2 & H3). rewrite H1, H2.
  cbn [take_objs]. 
  assert (Hgo : (if match l with [] => true | _ => false end then [] else
     starting_loop hdr parse index_of size fuel index (skipn p buf', f')) = take_objs index l).
  { destruct l as [|r2 l]; [reflexivity|]. apply IH; [cbn in Hf |- *; lia|discriminate|assumption]. }
  rewrite Hgo. reflexivity.
Qed.
Lemma starting_with_spec index l : Forall is_record l ->
  starting_with hdr nti parse index_of size index (recs_text l) = take_objs index (drop_lt index l).
Proof using All.
  intros H. unfold starting_with.
  assert (Hd : Forall is_record (drop_lt index l)).
  { clear - H. induction H as [|r l H HF IH]; [constructor|]. cbn. destruct (idx_ltb _ _); [assumption|now constructor]. }
  assert (Hlen : length (drop_lt index l) <= length l).
  { clear. induction l as [|r l IH]; [cbn; lia|]. cbn. destruct (idx_ltb _ _); cbn; lia. }
  pose proof (skip_to_index_spec index (S (length (recs_text l))) (recs_lines l) 0 (recs_one_line l H)) as HS.
  rewrite <- recs_text_lines in HS.
  assert (Hl : length (recs_lines l) < S (length (recs_text l))).
  { rewrite recs_text_lines. pose proof (text_length (recs_lines l)). lia. }
  specialize (HS Hl). rewrite first_ge_recs in HS by assumption.
  destruct (skip_to_index hdr nti size _ index _) as [[buf f]|].
  - destruct HS as [H1 H2]. rewrite <- recs_text_lines in H2.
    apply starting_loop_spec; [assumption| | |assumption].
    + pose proof (recs_length l). lia.
    + intros E. rewrite E in H1. now apply H1.
  - destruct (drop_lt index l) as [|r x] eqn:E; [reflexivity|]. discriminate.
Qed.

(** a sorted file: reading below [index] gives the records below [index] *)
Lemma take_drop_sorted index l :
  (forall r o, In r l -> parse (rec_text r) = Some o -> index_of o = rec_index r) ->
  StronglySorted (fun r s => idx_lt (rec_index r) (rec_index s)) l ->
  take_objs index (drop_lt index l) = parsed (filter (fun r => is_prefix index (rec_index r)) l).
Proof using All.
  intros HP HS. induction l as [|r l IH]; [reflexivity|].
  inversion HS as [|? ? HS' HF]; subst. cbn [drop_lt].
  destruct (idx_ltb (rec_index r) index) eqn:E.
  - rewrite IH; [|intros; apply HP; [now right|assumption]|assumption]. cbn [filter].
    destruct (is_prefix index (rec_index r)) eqn:E2; [|reflexivity].
    apply is_prefix_spec, prefix_le in E2. apply idx_ltb_lt in E. exfalso.
    destruct E2 as [E2|E2]; [rewrite <- E2 in E; now apply idx_lt_irrefl in E|].
    eapply idx_lt_irrefl, idx_lt_trans; eauto.
  - assert (Hge : forall s, In s (r :: l) -> index = rec_index s \/ idx_lt index (rec_index s)).
    { assert (Hr : index = rec_index r \/ idx_lt index (rec_index r)).
      { destruct (idx_trichotomy index (rec_index r)) as [H|[H|H]]; auto. apply idx_ltb_lt in H. congruence. }
      intros s [<-|Hs]; [assumption|]. right. rewrite Forall_forall in HF. specialize (HF s Hs).
      destruct Hr as [->|Hr]; [assumption|eapply idx_lt_trans; eauto]. }
    clear IH HF HS' E.
    assert (HN : forall l', (forall s, In s l' -> In s (r :: l)) -> StronglySorted (fun r s => idx_lt (rec_index r) (rec_index s)) l' ->
       take_objs index l' = parsed (filter (fun r => is_prefix index (rec_index r)) l')).
    { clear HS. induction l' as [|s l' IH]; intros Hin HS; [reflexivity|].
      inversion HS as [|? ? HS' HF]; subst. cbn [take_objs filter].
      destruct (parse (rec_text s)) as [o|] eqn:Ep.
      - rewrite (HP s o) by (auto; apply Hin; now left).
        destruct (is_prefix index (rec_index s)) eqn:E2.
        + cbn [parsed]. rewrite Ep, IH; [reflexivity| |assumption]. intros; apply Hin; now right.
        + assert (Hnone : forall t, In t l' -> is_prefix index (rec_index t) = false).
          { intros t Ht. destruct (is_prefix index (rec_index t)) eqn:E3; [|reflexivity].
            rewrite Forall_forall in HF. specialize (HF t Ht). apply is_prefix_spec in E3.
            assert (prefix index (rec_index s)) by (eapply prefix_between; [apply Hge, Hin; now left|exact HF|exact E3]).
            apply is_prefix_spec in H. congruence. }
          clear - Hnone. induction l' as [|t l' IH]; [reflexivity|]. cbn [filter].
          rewrite (Hnone t (or_introl eq_refl)). apply IH. intros; apply Hnone. now right.
      - rewrite IH by (auto; intros; apply Hin; now right).
        destruct (is_prefix index (rec_index s)); [cbn [parsed]; now rewrite Ep|reflexivity]. }
    apply HN; auto.
Qed.
(** ** a way of writing objects as records and of reading them back *)
Definition codes {X} (wr : X -> bytes) (ix : X -> idx) (R : X -> Ob -> Prop) (x : X) : Prop :=
  exists rc, wr x = rec_text rc /\ is_record rc /\ rec_index rc = ix x
    /\ exists y, parse (wr x) = Some y /\ R x y /\ index_of y = ix x.
Lemma codes_get {X} (wr : X -> bytes) ix R l restrict : Forall (codes wr ix R) l ->
  StronglySorted (fun a b => idx_lt (ix a) (ix b)) l ->
  Forall2 R (filter (fun x => is_prefix (match restrict with Some i => i | None => [] end) (ix x)) l)
    (get_objects hdr nti parse index_of size restrict (write_loop [] [] (map wr l))).
Proof using All.
  intros Hc HS.
  assert (Hw : write_loop [] [] (map wr l) = concat (map wr l)).
  { generalize (map wr l). clear. intros l.
    assert (H : forall w b, write_loop w b l = w ++ concat b ++ concat l).
    { induction l as [|r l IH]; intros w b; cbn [write_loop].
      - cbn. now rewrite app_nil_r.
      - destruct (Nat.leb MAX_BUFFER (length (b ++ [r]))); rewrite IH, concat_app; cbn; rewrite ?app_nil_r, <- ?app_assoc; reflexivity. }
    now rewrite H. }
  rewrite Hw. clear Hw.
  assert (H : exists rcs, map wr l = map rec_text rcs /\ Forall is_record rcs
     /\ map rec_index rcs = map ix l
     /\ Forall2 (fun x rc => exists y, parse (rec_text rc) = Some y /\ R x y /\ index_of y = rec_index rc) l rcs).
  { clear HS. induction Hc as [|x l (rc & E1 & E2 & E3 & y & E4 & E5 & E6) Hl (rcs & H1 & H2 & H3 & H4)].
    - exists []. repeat split; constructor.
    - exists (rc :: rcs). cbn [map]. rewrite E1, H1, H3, E3. repeat split; auto.
      constructor; [|assumption]. exists y. rewrite <- E1, E3. auto. }
  destruct H as (rcs & H1 & H2 & H3 & H4). rewrite H1. fold (recs_text rcs).
  assert (HP : forall i, Forall2 R (filter (fun x => is_prefix i (ix x)) l)
                 (parsed (filter (fun r => is_prefix i (rec_index r)) rcs))).
  { intros i. clear - H3 H4. revert H3. induction H4 as [|x rc l rcs (y & Hy & HR & _) H4 IH]; intros E; [constructor|].
    cbn [map] in E. injection E as E1 E2. cbn [filter]. rewrite E1.
    destruct (is_prefix i (ix x)); [|now apply IH].
    cbn [parsed]. rewrite Hy. constructor; [assumption|now apply IH]. }
  assert (HA : Forall2 R (filter (fun x => is_prefix [] (ix x)) l) (iterate hdr parse size (recs_text rcs))).
  { rewrite iterate_spec by assumption. specialize (HP []).
    replace (filter (fun r => is_prefix [] (rec_index r)) rcs) with rcs in HP; [assumption|].
    clear. induction rcs as [|r rcs IH]; [reflexivity|]. cbn [filter]. now rewrite <- IH. }
  unfold get_objects. destruct restrict as [[|c i]|]; try exact HA.
  rewrite (starting_with_spec (c :: i) rcs H2).
  rewrite take_drop_sorted; [apply HP| |].
  - intros r o Hr Ho. clear - H4 Hr Ho. induction H4 as [|x rc l rcs (y & Hy & _ & S) H4 IH]; [destruct Hr|].
    destruct Hr as [->|Hr]; [|now apply IH]. rewrite Hy in Ho. now injection Ho as <-.
  - clear - H3 HS. revert l H3 HS. induction rcs as [|rc rcs IH]; intros l E HL; [constructor|].
    destruct l as [|x l]; [discriminate|]. cbn [map] in E. injection E as E1 E2.
    inversion HL as [|? ? HL' HF]; subst. constructor; [now apply (IH l)|].
    rewrite Forall_forall in *. intros r Hr. rewrite E1.
    assert (Hi : In (rec_index r) (map ix l)) by (rewrite <- E2; now apply in_map).
    apply in_map_iff in Hi as (z & <- & Hz). now apply HF.
Qed.
End Flat.

Lemma write_loop_spec l : forall w b, write_loop w b l = w ++ concat b ++ concat l.
Proof.
  induction l as [|r l IH]; intros w b; cbn [write_loop].
  - cbn. now rewrite app_nil_r.
  - destruct (Nat.leb MAX_BUFFER (length (b ++ [r]))); rewrite IH, concat_app; cbn; rewrite ?app_nil_r, <- ?app_assoc; reflexivity.
Qed.
Lemma write_file_spec l : write_file l = concat l.
Proof. unfold write_file. now rewrite write_loop_spec. Qed.
