(* L_Quoting.v -- proofs about M_Quoting.v *)
From Verif Require Import Base L_Base M_Quoting.
From Coq Require Import ZifyBool ZifyNat ZifyN.

Lemma unquote_quote_path s : unquote_path (quote_path s) = s.
Proof.
  induction s as [|c r IH]; [easy|].
  cbn [quote_path]. destruct (Ascii.eqb_spec c nl) as [->|Hn].
  - cbn. now rewrite IH.
  - destruct (Ascii.eqb_spec c bslash) as [->|Hb].
    + cbn. now rewrite IH.
    + cbn [unquote_path]. apply Ascii.eqb_neq in Hb. rewrite Hb, IH. easy.
Qed.

Lemma quote_path_no_nl s : ~ In nl (quote_path s).
Proof.
  induction s as [|c r IH]; [easy|].
  cbn [quote_path]. destruct (Ascii.eqb_spec c nl) as [->|Hn].
  - intros [E|[E|E]]; [discriminate|discriminate|auto].
  - destruct (Ascii.eqb_spec c bslash) as [->|Hb].
    + intros [E|[E|E]]; [discriminate|discriminate|auto].
    + intros [E|E]; [congruence|auto].
Qed.

Lemma quote_path_inj s t : quote_path s = quote_path t -> s = t.
Proof. intros H. rewrite <- (unquote_quote_path s), H. apply unquote_quote_path. Qed.

Lemma quote_path_id s : ~ In nl s -> ~ In bslash s -> quote_path s = s.
Proof.
  induction s as [|c r IH]; intros H1 H2; [easy|].
  cbn [quote_path].
  destruct (Ascii.eqb_spec c nl) as [->|Hn]; [exfalso; apply H1; now left|].
  destruct (Ascii.eqb_spec c bslash) as [->|Hb]; [exfalso; apply H2; now left|].
  rewrite IH; [easy| |]; intros Hin; [apply H1|apply H2]; now right.
Qed.

(* --- file-system quoting --- *)
Lemma dec_pad_3 n : (n < 1000)%N ->
  exists d1 d2 d3, dec_pad 3 n = [d1; d2; d3] /\ is_digit d1 = true /\ is_digit d2 = true
    /\ is_digit d3 = true /\ dval [d1; d2; d3] = n.
Proof.
  intros Hn.
  assert (Hl : List.length (dec_pad 3 n) = 3%nat) by (apply dec_pad_length; [lia|exact Hn]).
  pose proof (dec_pad_digits 3 n) as Hd. pose proof (dval_dec_pad 3 n) as Hv.
  destruct (dec_pad 3 n) as [|d1 [|d2 [|d3 [|d4 r]]]]; try discriminate Hl.
  exists d1, d2, d3. cbn [forallb] in Hd. rewrite !andb_true_iff in Hd. intuition.
Qed.

Lemma fs_unquote_single c r :
  (ord c < 128)%N -> fs_unquote (quote_single c ++ r) = c :: fs_unquote r.
Proof.
  intros Hc. unfold quote_single.
  destruct (dec_pad_3 (ord c)) as (d1 & d2 & d3 & E & H1 & H2 & H3 & Hv); [lia|].
  rewrite E. cbn [fs_unquote app]. rewrite Ascii.eqb_refl, H1, H2, H3, Hv. cbn [andb].
  unfold fsencode_chr. destruct (N.ltb_spec (ord c) 128) as [_|]; [|lia].
  now rewrite chr_ord.
Qed.

Lemma fs_unquote_class cls s r :
  (forall c, In c s -> cls c = true -> ord c < 128)%N ->
  fs_unquote (quote_class cls s ++ r) = s ++ fs_unquote r.
Proof.
  induction s as [|c s IH]; intros H; [easy|].
  cbn [quote_class].
  destruct (cls c || Ascii.eqb c QUOTING_CHAR) eqn:E.
  - rewrite <- app_assoc, fs_unquote_single.
    + rewrite IH; [easy|]. intros d Hd. apply H. now right.
    + apply orb_true_iff in E. destruct E as [E|E]; [apply H; [now left|easy]|].
      apply Ascii.eqb_eq in E. subst c. unfold QUOTING_CHAR. rewrite ord_chr; lia.
  - apply orb_false_iff in E. destruct E as [_ E].
    cbn [app fs_unquote]. rewrite E, IH; [easy|]. intros d Hd. apply H. now right.
Qed.

Lemma fs_unquote_quote_class cls s :
  (forall c, In c s -> cls c = true -> ord c < 128)%N -> fs_unquote (quote_class cls s) = s.
Proof. intros H. rewrite <- (app_nil_r (quote_class cls s)), fs_unquote_class by easy. apply app_nil_r. Qed.

(* the last byte of a quoted name, when it is not a digit, is the last byte of
   the name *)
Lemma quote_class_app cls s t : quote_class cls (s ++ t) = quote_class cls s ++ quote_class cls t.
Proof.
  induction s as [|c s IH]; [easy|]. cbn [quote_class app]. rewrite IH.
  destruct (_ || _); [now rewrite app_assoc|easy].
Qed.

Lemma quote_single_last c : exists p d, quote_single c = p ++ [d] /\ is_digit d = true.
Proof.
  unfold quote_single.
  destruct (dec_pad_3 (ord c)) as (d1 & d2 & d3 & E & H1 & H2 & H3 & Hv).
  { pose proof (ord_lt c). lia. }
  rewrite E. now exists [QUOTING_CHAR; d1; d2], d3.
Qed.

Lemma escape_trailing_cases cls s :
  escape_trailing (quote_class cls s) = quote_class cls s
  \/ exists t c, s = t ++ [c] /\ (c = chr 32 \/ c = chr 46) /\ cls c = false
       /\ escape_trailing (quote_class cls s) = quote_class cls t ++ quote_single c.
Proof.
  destruct s as [|c t] using rev_ind; [left; reflexivity|]. clear IHt.
  rewrite quote_class_app. cbn [quote_class].
  destruct (cls c || Ascii.eqb c QUOTING_CHAR) eqn:Ec.
  - rewrite app_nil_r. destruct (quote_single_last c) as (p & d & Ep & Hd).
    rewrite Ep. left. unfold escape_trailing. rewrite rev_app_distr, rev_app_distr.
    cbn [rev app].
    destruct (Ascii.eqb_spec d (chr 32)) as [->|_]; [discriminate Hd|].
    destruct (Ascii.eqb_spec d (chr 46)) as [->|_]; [discriminate Hd|]. reflexivity.
  - unfold escape_trailing. rewrite rev_app_distr. cbn [rev app].
    apply orb_false_iff in Ec. destruct Ec as [Ec _].
    destruct (Ascii.eqb c (chr 32) || Ascii.eqb c (chr 46)) eqn:Et; [|now left].
    right. exists t, c. rewrite rev_involutive. repeat split; try easy.
    apply orb_true_iff in Et. rewrite !Ascii.eqb_eq in Et. easy.
Qed.

Lemma fs_unquote_trailing cls s :
  (forall c, In c s -> cls c = true -> ord c < 128)%N ->
  fs_unquote (escape_trailing (quote_class cls s)) = s.
Proof.
  intros H. destruct (escape_trailing_cases cls s) as [->|(t & c & -> & Hc & _ & ->)].
  - now apply fs_unquote_quote_class.
  - rewrite fs_unquote_class.
    + rewrite <- (app_nil_r (quote_single c)), fs_unquote_single; [easy|].
      destruct Hc as [->| ->]; rewrite ord_chr; lia.
    + intros d Hd. apply H. apply in_or_app. now left.
Qed.

(* facts about device names *)
Lemma dos_device_head q : dos_device q = true ->
  exists a r, q = a :: r /\ (97 <= ord (lower a) <= 122)%N.
Proof.
  destruct q as [|a [|b [|c r]]]; try discriminate. intros H.
  exists a, (b :: c :: r). split; [easy|].
  cbn [dos_device map] in H. rewrite orb_true_iff in H.
  assert (G : forall x y z, beq_bytes [lower a; lower b; lower c] [x; y; z] = true -> lower a = x)
    by (intros x y z E; apply beq_bytes_true in E; congruence).
  assert (R : lower a = chr 97 \/ lower a = chr 112 \/ lower a = chr 99 \/ lower a = chr 110 \/ lower a = chr 108).
  { destruct H as [H|H].
    - apply andb_true_iff in H. destruct H as [H _].
      rewrite !orb_true_iff in H. destruct H as [[[H|H]|H]|H]; apply G in H; rewrite H; vm_compute; tauto.
    - destruct r as [|d r]; [discriminate|]. apply andb_true_iff in H. destruct H as [H _].
      rewrite orb_true_iff, !andb_true_iff in H.
      destruct H as [[H _]|[[H _] _]]; apply G in H; rewrite H; vm_compute; tauto. }
  decompose [or] R; match goal with E : lower a = _ |- _ => rewrite E end; rewrite ord_chr; lia.
Qed.

Lemma lower_alpha a : (97 <= ord (lower a) <= 122)%N -> (ord a < 128)%N /\ a <> QUOTING_CHAR.
Proof.
  unfold lower. destruct ((65 <=? ord a) && (ord a <=? 90))%N eqn:E.
  - intros _. split; [lia|]. intros ->. unfold QUOTING_CHAR in E. rewrite ord_chr in E by lia. lia.
  - intros H. split; [lia|]. intros ->. unfold QUOTING_CHAR in H. rewrite ord_chr in H by lia. lia.
Qed.

Lemma fs_unquote_dos q :
  fs_unquote (if negb (dos_device q) then q
              else match q with c :: r => quote_single c ++ r | [] => q end) = fs_unquote q.
Proof.
  destruct (dos_device q) eqn:E; cbn [negb]; [|easy].
  destruct (dos_device_head q E) as (a & r & -> & Ha).
  apply lower_alpha in Ha. destruct Ha as [Ha Hq].
  rewrite fs_unquote_single by easy. cbn [fs_unquote].
  apply Ascii.eqb_neq in Hq. now rewrite Hq.
Qed.

Lemma fs_roundtrip cls edd ets s :
  (forall c, In c s -> cls c = true -> ord c < 128)%N ->
  fs_unquote (fs_quote cls edd ets s) = s.
Proof.
  intros H. unfold fs_quote.
  destruct edd, ets; cbn [negb andb].
  - rewrite fs_unquote_dos. now apply fs_unquote_trailing.
  - rewrite fs_unquote_dos. now apply fs_unquote_quote_class.
  - now apply fs_unquote_trailing.
  - now apply fs_unquote_quote_class.
Qed.

(* --- the quoted form avoids what the file system refuses --- *)
Lemma quote_single_in c x : In x (quote_single c) -> x = QUOTING_CHAR \/ is_digit x = true.
Proof.
  unfold quote_single. intros [H|H]; [now left|right].
  pose proof (dec_pad_digits 3 (ord c)) as Hd. rewrite forallb_forall in Hd. auto.
Qed.
Lemma quote_class_in cls s x :
  In x (quote_class cls s) -> cls x = false \/ x = QUOTING_CHAR \/ is_digit x = true.
Proof.
  induction s as [|c s IH]; [easy|]. cbn [quote_class].
  destruct (cls c || Ascii.eqb c QUOTING_CHAR) eqn:E.
  - intros H. apply in_app_or in H. destruct H as [H|H]; [right; now apply (quote_single_in c)|auto].
  - apply orb_false_iff in E. intros [->|H]; [left; tauto|auto].
Qed.
Lemma escape_trailing_in q x : In x (escape_trailing q) -> In x q \/ x = QUOTING_CHAR \/ is_digit x = true.
Proof.
  unfold escape_trailing. destruct (rev q) as [|c r] eqn:E; [now left|].
  destruct (_ || _); [|now left]. intros H. apply in_app_or in H. destruct H as [H|H].
  - left. apply in_rev. rewrite E. right. now apply in_rev.
  - right. now apply (quote_single_in c).
Qed.
Lemma fs_quote_in cls edd ets s x :
  In x (fs_quote cls edd ets s) -> cls x = false \/ x = QUOTING_CHAR \/ is_digit x = true.
Proof.
  assert (D : forall q, In x (if negb (dos_device q) then q else match q with c :: r => quote_single c ++ r | [] => q end) ->
     In x q \/ x = QUOTING_CHAR \/ is_digit x = true).
  { intros q. destruct (negb (dos_device q)); [now left|]. destruct q as [|c r]; [now left|].
    intros H. apply in_app_or in H. destruct H as [H|H]; [right; now apply (quote_single_in c)|left; now right]. }
  unfold fs_quote. destruct edd, ets; cbn [negb andb]; intros H.
  - apply D in H. destruct H as [H|H]; [|auto]. apply escape_trailing_in in H.
    destruct H as [H|H]; [now apply (quote_class_in cls s)|auto].
  - apply D in H. destruct H as [H|H]; [now apply (quote_class_in cls s)|auto].
  - apply escape_trailing_in in H. destruct H as [H|H]; [now apply (quote_class_in cls s)|auto].
  - now apply (quote_class_in cls s).
Qed.

Lemma last_app_ne {A} (p q : list A) d : q <> [] -> last (p ++ q) d = last q d.
Proof.
  intros Hq. induction p as [|a p IH]; [easy|].
  cbn [app]. cbn [last]. destruct (p ++ q) eqn:E; [|exact IH].
  apply app_eq_nil in E. destruct E; contradiction.
Qed.

Lemma quote_single_ne c : quote_single c <> [].
Proof. discriminate. Qed.
Lemma last_quote_single c p d : is_digit (last (p ++ quote_single c) d) = true.
Proof.
  destruct (quote_single_last c) as (q & e & E & He). rewrite E, app_assoc, last_last. easy.
Qed.

Lemma escape_trailing_last q d :
  d <> chr 32 -> d <> chr 46 ->
  last (escape_trailing q) d <> chr 32 /\ last (escape_trailing q) d <> chr 46.
Proof.
  intros H1 H2. unfold escape_trailing. destruct (rev q) as [|c r] eqn:E.
  - apply (f_equal (@rev _)) in E. rewrite rev_involutive in E. subst q. easy.
  - destruct (Ascii.eqb c (chr 32) || Ascii.eqb c (chr 46)) eqn:Ec.
    + pose proof (last_quote_single c (rev r) d) as G.
      split; intros X; rewrite X in G; discriminate.
    + apply (f_equal (@rev _)) in E. rewrite rev_involutive in E. cbn [rev] in E. subst q.
      rewrite last_last. apply orb_false_iff in Ec. rewrite !Ascii.eqb_neq in Ec. tauto.
Qed.

Lemma fs_quote_last cls edd s d :
  d <> chr 32 -> d <> chr 46 ->
  last (fs_quote cls edd true s) d <> chr 32 /\ last (fs_quote cls edd true s) d <> chr 46.
Proof.
  intros H1 H2. unfold fs_quote. rewrite andb_false_r.
  pose proof (escape_trailing_last (quote_class cls s) d H1 H2) as G.
  destruct edd; cbn [negb andb]; [|exact G].
  destruct (negb (dos_device (escape_trailing (quote_class cls s)))) eqn:En; [exact G|].
  destruct (dos_device (escape_trailing (quote_class cls s))) eqn:Ed; [|discriminate].
  set (q := escape_trailing (quote_class cls s)) in *.
  destruct q as [|a [|b q]]; [discriminate|discriminate|].
  rewrite last_app_ne by discriminate. exact G.
Qed.

Lemma quote_single_not_dos c r : dos_device (quote_single c ++ r) = false.
Proof.
  unfold quote_single. cbn [app].
  destruct (dos_device (QUOTING_CHAR :: dec_pad 3 (ord c) ++ r)) eqn:E; [|easy].
  destruct (dos_device_head _ E) as (a & r' & Eq & Ha). injection Eq; intros _ <-.
  assert (E2 : ord (lower QUOTING_CHAR) = 59%N) by reflexivity. lia.
Qed.

Lemma fs_quote_not_dos cls ets s : dos_device (fs_quote cls true ets s) = false.
Proof.
  unfold fs_quote. cbn [negb]. rewrite andb_false_l, andb_false_r.
  set (q := if ets then _ else _).
  destruct (dos_device q) eqn:E; cbn [negb]; [|easy].
  destruct q; [easy|]. apply quote_single_not_dos.
Qed.

Lemma fs_quote_inj cls edd ets s t :
  (forall c, cls c = true -> ord c < 128)%N ->
  fs_quote cls edd ets s = fs_quote cls edd ets t -> s = t.
Proof.
  intros H E. rewrite <- (fs_roundtrip cls edd ets s), E by auto. apply fs_roundtrip. auto.
Qed.

(* even with high bytes in the class, quoting stays injective (only unquoting
   is wrong) *)
Lemma ctq_ascii a b e w cls c :
  ctq_from_fsas a b e w = Some cls -> e <> Some false -> cls c = true -> (ord c < 128)%N.
Proof.
  intros H He Hc. unfold ctq_from_fsas in H.
  destruct (a && negb b), e as [[|]|], w; cbn [app] in H; try congruence;
  injection H as <-; cbn [existsb] in Hc; unfold in_range in Hc;
  try (rewrite !orb_true_iff in Hc);
  repeat match goal with
  | H : _ \/ _ |- _ => destruct H
  | H : (_ && _)%N = true |- _ => apply andb_true_iff in H; destruct H
  | H : (_ <=? _)%N = true |- _ => apply N.leb_le in H
  | H : false = true |- _ => discriminate
  | H : Ascii.eqb _ _ = true |- _ => apply Ascii.eqb_eq in H; subst c
  | H : mem_byte _ _ = true |- _ => apply mem_byte_In in H; cbn [In] in H
  | H : _ = c |- _ => subst c
  | H : False |- _ => contradiction
  end; try lia; reflexivity.
Qed.

Lemma ctq_not_digit a b e w cls c :
  ctq_from_fsas a b e w = Some cls -> is_digit c = true -> cls c = false.
Proof.
  intros H Hd. apply is_digit_ord in Hd.
  destruct (cls c) eqn:Hc; [|easy]. exfalso. unfold ctq_from_fsas in H.
  destruct (a && negb b), e as [[|]|], w; cbn [app] in H; try congruence;
  injection H as <-; cbn [existsb] in Hc; unfold in_range in Hc;
  try (rewrite !orb_true_iff in Hc);
  repeat match goal with
  | H : _ \/ _ |- _ => destruct H
  | H : (_ && _)%N = true |- _ => apply andb_true_iff in H; destruct H
  | H : (_ <=? _)%N = true |- _ => apply N.leb_le in H
  | H : false = true |- _ => discriminate
  | H : Ascii.eqb _ _ = true |- _ => apply Ascii.eqb_eq in H; subst c
  | H : mem_byte _ _ = true |- _ => apply mem_byte_In in H; cbn [In] in H
  | H : _ = c |- _ => subst c
  | H : False |- _ => contradiction
  end; try lia; destruct Hd as [H1 H2]; vm_compute in H1, H2; solve [now elim H1|now elim H2].
Qed.

(* quoting chosen for a repository never changes over its life time *)
Lemma ctq_run_const stored l x :
  In (Some x) (ctq_run (Some stored) l) -> x = stored.
Proof.
  induction l as [|[enf sug] r IH]; [easy|]. cbn [ctq_run].
  unfold compare_ctq at 1.
  set (actual := match enf with None => _ | Some _ => _ end).
  destruct (beq_bytes actual stored) eqn:E.
  - apply beq_bytes_true in E. intros [H|H]; [congruence|auto].
  - intros [H|H]; [discriminate|auto].
Qed.
