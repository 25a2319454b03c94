From Coq Require Import List ZArith Bool Ascii Lia Sorting.Sorted ZifyN ZifyNat ZifyBool.
From Verif Require Import Base L_Base M_Quoting M_Iter L_Iter M_Rorp M_Meta S_Meta L_Meta L_MetaAttr M_EaAcl S_EaAcl.
Import List ListNotations.
Local Open Scope N_scope.

(** ** quoting *)
Lemma unq_other c t : c <> bslash -> acl_unquote (c :: t) = c :: acl_unquote t.
Proof.
  intros H. destruct t as [|a [|b [|d r]]]; try reflexivity.
  cbn [acl_unquote]. destruct (Ascii.eqb_spec c bslash); [contradiction|reflexivity].
Qed.
Lemma unq_oct c t : acl_unquote (octal c ++ t) = c :: acl_unquote t.
Proof. destruct c as [[] [] [] [] [] [] [] []]; reflexivity. Qed.
Lemma plain_spec c : plain c = true <-> plain_byte c.
Proof.
  unfold plain, plain_byte. split.
  - intros H. repeat split; try lia; intros ->; vm_compute in H; discriminate.
  - intros (H1 & H2 & H3). assert (ord c <> 92) by (intros E; apply H2; rewrite <- (chr_ord c), E; reflexivity).
    assert (ord c <> 61) by (intros E; apply H3; rewrite <- (chr_ord c), E; reflexivity). lia.
Qed.
Lemma unquote_quote s : acl_unquote (acl_quote s) = s.
Proof.
  induction s as [|c s IH]; [reflexivity|]. cbn [acl_quote]. destruct (plain c) eqn:E.
  - apply plain_spec in E as (_ & H & _). cbn [app]. rewrite unq_other, IH by exact H. reflexivity.
  - now rewrite unq_oct, IH.
Qed.
Lemma quote_plain s : (forall c, In c s -> plain_byte c) -> acl_quote s = s.
Proof.
  induction s as [|c s IH]; intros H; [reflexivity|]. cbn [acl_quote].
  rewrite (proj2 (plain_spec c)) by (apply H; now left). cbn [app]. rewrite IH; [reflexivity|].
  intros; apply H; now right.
Qed.
Definition visible (c : ascii) : bool := (33 <=? ord c) && (ord c <=? 126).
Lemma octal_visible c : forallb visible (octal c) = true.
Proof. destruct c as [[] [] [] [] [] [] [] []]; reflexivity. Qed.
Lemma quote_visible s : forallb visible (acl_quote s) = true.
Proof.
  induction s as [|c s IH]; [reflexivity|]. cbn [acl_quote]. rewrite forallb_app, IH.
  destruct (plain c) eqn:E; [|now rewrite octal_visible]. cbn [forallb]. unfold plain in E. unfold visible.
  rewrite andb_true_r. cbn [andb]. lia.
Qed.
Lemma visible_no c s : visible c = false -> forallb visible s = true -> ~ In c s.
Proof. intros H F Hi. rewrite forallb_forall in F. apply F in Hi. congruence. Qed.
Lemma visible_one_line s : forallb visible s = true -> one_line s.
Proof. apply visible_no. reflexivity. Qed.
Lemma visible_not_space c : visible c = true -> is_space c = false.
Proof. unfold visible, is_space. lia. Qed.

(** ** base64 *)
Lemma b64_val_char v : v < 64 -> b64_val (b64_char v) = Some v.
Proof.
  intros H. assert (F : forallb (fun v => match b64_val (b64_char v) with Some w => N.eqb v w | None => false end)
                         (map N.of_nat (seq 0 64)) = true) by (vm_compute; reflexivity).
  rewrite forallb_forall in F. specialize (F v). destruct (b64_val (b64_char v)).
  - f_equal. symmetry. apply N.eqb_eq, F. apply in_map_iff. exists (N.to_nat v). split; [lia|]. apply in_seq. lia.
  - assert (false = true); [|discriminate]. apply F. apply in_map_iff. exists (N.to_nat v). split; [lia|]. apply in_seq. lia.
Qed.
Lemma b64_char_visible v : v < 64 -> visible (b64_char v) = true /\ b64_char v <> pad.
Proof.
  intros H. assert (F : forallb (fun v => visible (b64_char v) && negb (Ascii.eqb (b64_char v) pad))
                         (map N.of_nat (seq 0 64)) = true) by (vm_compute; reflexivity).
  rewrite forallb_forall in F. specialize (F v).
  assert (Hv : In v (map N.of_nat (seq 0 64))) by (apply in_map_iff; exists (N.to_nat v); split; [lia|]; apply in_seq; lia).
  apply F in Hv. apply andb_true_iff in Hv as [H1 H2]. split; [assumption|]. intros E. rewrite E in H2. discriminate.
Qed.
Ltac bytes3 := repeat match goal with |- context [ord ?a] =>
    lazymatch goal with H : ord a < 256 |- _ => fail | _ => pose proof (ord_lt a) end end.
Ltac chr_is a := transitivity (chr (ord a)); [f_equal; Z.div_mod_to_equations; lia | apply chr_ord].
Lemma div_small a k m : a < k * m -> 0 < k -> a / k < m.
Proof. intros. apply N.div_lt_upper_bound; lia. Qed.
Lemma b64_1 a b : chr (ord a / 4 * 4 + (ord a mod 4 * 16 + ord b / 16) / 16) = a.
Proof.
  pose proof (ord_lt a); pose proof (ord_lt b). transitivity (chr (ord a)); [f_equal|apply chr_ord].
  zify. Z.div_mod_to_equations. lia.
Qed.
Lemma b64_2 a b c : chr ((ord a mod 4 * 16 + ord b / 16) mod 16 * 16 + (ord b mod 16 * 4 + ord c / 64) / 4) = b.
Proof.
  pose proof (ord_lt a); pose proof (ord_lt b); pose proof (ord_lt c). transitivity (chr (ord b)); [f_equal|apply chr_ord].
  zify. Z.div_mod_to_equations. lia.
Qed.
Lemma b64_3 b c : chr ((ord b mod 16 * 4 + ord c / 64) mod 4 * 64 + ord c mod 64) = c.
Proof.
  pose proof (ord_lt b); pose proof (ord_lt c). transitivity (chr (ord c)); [f_equal|apply chr_ord].
  zify. Z.div_mod_to_equations. lia.
Qed.
Lemma b64_1' a : chr (ord a / 4 * 4 + (ord a mod 4 * 16) / 16) = a.
Proof. pose proof (b64_1 a (chr 0)) as H. change (ord (chr 0) / 16) with 0 in H. now rewrite N.add_0_r in H. Qed.
Lemma b64_2' a b : chr ((ord a mod 4 * 16 + ord b / 16) mod 16 * 16 + (ord b mod 16 * 4) / 4) = b.
Proof. pose proof (b64_2 a b (chr 0)) as H. change (ord (chr 0) / 64) with 0 in H. now rewrite N.add_0_r in H. Qed.
Lemma lt64 a b : ord a / 4 < 64 /\ ord a mod 4 * 16 + ord b / 16 < 64 /\ ord a mod 16 * 4 + ord b / 64 < 64 /\ ord a mod 64 < 64
   /\ ord a mod 4 * 16 < 64 /\ ord a mod 16 * 4 < 64.
Proof. pose proof (ord_lt a); pose proof (ord_lt b). zify. Z.div_mod_to_equations. lia. Qed.
Lemma list3_ind (P : bytes -> Prop) : P [] -> (forall a, P [a]) -> (forall a b, P [a; b]) ->
  (forall a b c r, P r -> P (a :: b :: c :: r)) -> forall s, P s.
Proof.
  intros H0 H1 H2 H3 s. assert (H : forall n s, (length s <= n)%nat -> P s); [|apply (H (length s)); lia].
  clear s. induction n as [|n IH]; intros [|a [|b [|c r]]] Hs; auto; cbn [length] in Hs; try lia.
  apply H3, IH. lia.
Qed.
Lemma b64_round s : b64decode (b64encode s) = Some s.
Proof.
  induction s as [|a|a b|a b c r IH] using list3_ind.
  - reflexivity.
  - cbn [b64encode b64decode]. destruct (lt64 a a) as (L1 & _ & _ & _ & L5 & _).
    rewrite !b64_val_char by assumption. change (b64_val pad) with (@None N). cbn [andb].
    change (Ascii.eqb pad pad) with true. cbn [andb]. now rewrite b64_1'.
  - cbn [b64encode b64decode]. destruct (lt64 a b) as (L1 & L2 & _). destruct (lt64 b b) as (_ & _ & _ & _ & _ & L6).
    rewrite !b64_val_char by assumption. change (b64_val pad) with (@None N).
    change (Ascii.eqb pad pad) with true. now rewrite b64_1, b64_2'.
  - cbn [b64encode app b64decode]. destruct (lt64 a b) as (L1 & L2 & _). destruct (lt64 b c) as (_ & _ & L3 & _).
    destruct (lt64 c c) as (_ & _ & _ & L4 & _).
    rewrite !b64_val_char by assumption. rewrite IH. now rewrite b64_1, b64_2, b64_3.
Qed.
Lemma b64_visible s : forallb visible (b64encode s) = true.
Proof.
  induction s as [|a|a b|a b c r IH] using list3_ind.
  - reflexivity.
  - cbn [b64encode forallb]. destruct (lt64 a a) as (L1 & _ & _ & _ & L5 & _).
    now rewrite !(fun v H => proj1 (b64_char_visible v H)) by assumption.
  - cbn [b64encode forallb]. destruct (lt64 a b) as (L1 & L2 & _). destruct (lt64 b b) as (_ & _ & _ & _ & _ & L6).
    now rewrite !(fun v H => proj1 (b64_char_visible v H)) by assumption.
  - cbn [b64encode app forallb]. destruct (lt64 a b) as (L1 & L2 & _). destruct (lt64 b c) as (_ & _ & L3 & _).
    destruct (lt64 c c) as (_ & _ & _ & L4 & _).
    rewrite !(fun v H => proj1 (b64_char_visible v H)) by assumption. now rewrite IH.
Qed.

(** ** strip *)
Lemma lstrip_id c s : is_space c = false -> lstrip (c :: s) = c :: s.
Proof. intros H. cbn [lstrip]. now rewrite H. Qed.
Lemma strip_id c s d : is_space c = false -> is_space d = false -> strip (c :: s ++ [d]) = c :: s ++ [d].
Proof.
  intros H1 H2. unfold strip. rewrite lstrip_id by assumption.
  assert (E : rev (c :: s ++ [d]) = d :: rev (c :: s)).
  { change (c :: s ++ [d]) with ((c :: s) ++ [d]). now rewrite rev_app_distr. }
  rewrite E, lstrip_id by assumption. rewrite <- E. apply rev_involutive.
Qed.
Lemma strip_visible s : forallb visible s = true -> strip s = s.
Proof.
  intros H. destruct s as [|c s]; [reflexivity|]. cbn [forallb] in H. apply andb_true_iff in H as [H1 H2].
  destruct (@exists_last _ (c :: s)) as (r & d & E); [discriminate|]. 
  destruct r as [|c' r].
  - cbn in E. injection E as -> ->. unfold strip. rewrite lstrip_id by (now apply visible_not_space).
    cbn [rev app]. rewrite lstrip_id by (now apply visible_not_space). reflexivity.
  - cbn in E. injection E as <- E. rewrite E in *. rewrite forallb_app in H2. apply andb_true_iff in H2 as [_ H2].
    cbn [forallb] in H2. rewrite andb_true_r in H2. apply strip_id; now apply visible_not_space.
Qed.

(** ** header *)
Lemma FILE_HDR_ne : FILE_HDR <> []. Proof. discriminate. Qed.
Lemma FILE_HDR_nl : ~ In nl FILE_HDR. Proof. vm_compute. intuition discriminate. Qed.
Lemma FILE_HDR_space : In (chr 32) FILE_HDR. Proof. vm_compute. tauto. Qed.
Lemma acl_index_path i : good_path i -> acl_index (acl_quote (index_path i)) = i.
Proof.
  intros (H1 & H2). destruct i as [|c i]; [reflexivity|]. unfold acl_index, index_path.
  set (j := c :: i) in *.
  destruct (beq_bytes (acl_quote (join_with (bs "/") j)) (bs ".")) eqn:E.
  - apply beq_bytes_true in E. assert (E' : join_with (bs "/") j = bs ".").
    { rewrite <- (unquote_quote (join_with (bs "/") j)), E. reflexivity. }
    apply join_dot in E'; [contradiction|discriminate|assumption].
  - rewrite unquote_quote. change (bs "/") with [chr 47]. apply split_join; [discriminate|].
    intros x Hx. now apply H2.
Qed.
Lemma skip_hdr s : skipn 8 (FILE_HDR ++ s) = s.
Proof. exact (skipn_plus FILE_HDR s 0). Qed.
Lemma file_hdr_ok i : good_path i ->
  let h := FILE_HDR ++ acl_quote (index_path i) in
  starts_with FILE_HDR h = true /\ one_line h /\ acl_index (skipn 8 h) = i.
Proof.
  intros Hp h. split; [|split].
  - apply starts_with_spec. now eexists.
  - unfold one_line, h. rewrite in_app_iff. intros [H|H]; [now apply FILE_HDR_nl|].
    revert H. apply visible_one_line, quote_visible.
  - unfold h. rewrite skip_hdr. now apply acl_index_path.
Qed.
Lemma visible_not_hdr s : forallb visible s = true -> starts_with FILE_HDR s = false.
Proof.
  intros H. destruct (starts_with FILE_HDR s) eqn:E; [|reflexivity].
  apply starts_with_spec in E as (t & ->). exfalso. apply (visible_no (chr 32) _ eq_refl H).
  rewrite in_app_iff. left. apply FILE_HDR_space.
Qed.

(** ** EA *)
Lemma join_nl_text l ls : join_with [nl] (l :: ls) ++ [nl] = text (l :: ls).
Proof.
  revert l. induction ls as [|m ls IH]; intros l.
  - rewrite text_cons. reflexivity.
  - rewrite text_cons, <- IH. cbn [join_with]. now rewrite <- !app_assoc.
Qed.
Lemma ea_line_visible nv : fst nv <> [] -> (forall c, In c (fst nv) -> plain_byte c) ->
  forallb visible (ea_line nv) = true.
Proof.
  intros H0 H. destruct nv as [n v]. cbn [fst] in *. unfold ea_line. cbn [fst snd]. destruct v.
  - rewrite <- (quote_plain n H). apply quote_visible.
  - rewrite !forallb_app, quote_visible, b64_visible. reflexivity.
Qed.
Lemma ea_set_fresh d n v : ~ In n (map fst d) -> ea_set d n v = d ++ [(n, v)].
Proof.
  induction d as [|[m w] d IH]; intros H; [reflexivity|]. cbn [ea_set app]. cbn [map fst] in H.
  rewrite (proj2 (beq_bytes_false m n)) by (intros ->; apply H; now left). rewrite IH; [reflexivity|].
  intros Hi; apply H; now right.
Qed.
Lemma starts_0s s : starts_with (bs "0s") (bs "0s" ++ s) = true.
Proof. apply starts_with_spec. now eexists. Qed.
Lemma ea_lines_spec d acc : NoDup (map fst (acc ++ d)) ->
  (forall n, In n (map fst d) -> n <> [] /\ forall c, In c n -> plain_byte c) ->
  ea_lines (map ea_line d ++ [[]]) acc = Some (acc ++ d).
Proof.
  revert acc. induction d as [|[n v] d IH]; intros acc HN H.
  - cbn [map app ea_lines]. change (strip []) with (@nil ascii). cbn. now rewrite app_nil_r.
  - assert (Hn : n <> [] /\ forall c, In c n -> plain_byte c) by (apply H; now left).
    destruct Hn as [Hne Hp].
    assert (Hf : ~ In n (map fst acc)).
    { rewrite map_app in HN. cbn [map fst] in HN. apply NoDup_remove_2 in HN. intros Hi. apply HN. rewrite in_app_iff. now left. }
    assert (Hv := ea_line_visible (n, v) Hne Hp).
    assert (Heq : ~ In (chr 61) n) by (intros Hi; apply Hp in Hi as (_ & _ & Hi); now apply Hi).
    assert (Hset : ea_lines (map ea_line d ++ [[]]) (ea_set acc n v) = Some (acc ++ (n, v) :: d)).
    { rewrite ea_set_fresh by assumption. rewrite IH; [now rewrite <- app_assoc| |].
      - now rewrite <- app_assoc.
      - intros; apply H; now right. }
    cbn [map app ea_lines]. rewrite strip_visible by assumption.
    assert (D : v = [] \/ v <> []) by (destruct v; [now left|now right]). destruct D as [D|D].
    + assert (EL : ea_line (n, v) = n) by (rewrite D; reflexivity).
      rewrite EL. rewrite break_on_nosep by assumption.
      replace (ea_set acc n []) with (ea_set acc n v) by (now rewrite D). destruct n as [|c n]; [congruence|]. exact Hset.
    + assert (EL : ea_line (n, v) = n ++ chr 61 :: (bs "0s" ++ b64encode v)).
      { unfold ea_line. cbn [fst snd]. rewrite quote_plain by assumption. now destruct v. }
      rewrite EL. rewrite break_on_app by assumption. rewrite starts_0s.
      replace (skipn 2 (bs "0s" ++ b64encode v)) with (b64encode v) by reflexivity.
      rewrite b64_round. destruct (n ++ chr 61 :: bs "0s" ++ b64encode v) eqn:E; [destruct n; discriminate|]. exact Hset.
Qed.
Lemma ea_codes e : plain_eas e -> codes FILE_HDR acl_index ea_parse ea_index ea_record ea_index eq e.
Proof.
  intros (Hp & HN & H). destruct (file_hdr_ok _ Hp) as (H1 & H2 & H3).
  set (h := FILE_HDR ++ acl_quote (index_path (ea_index e))) in *.
  assert (ER : ea_record e = rec_text (h, map ea_line (ea_dict e))) by apply join_nl_text.
  assert (HB : Forall (fun l => one_line l /\ starts_with FILE_HDR l = false) (map ea_line (ea_dict e))).
  { apply Forall_map, Forall_forall. intros nv Hi. destruct (H (fst nv)) as [A B]; [now apply in_map|].
    pose proof (ea_line_visible nv A B). split; [now apply visible_one_line|now apply visible_not_hdr]. }
  exists (h, map ea_line (ea_dict e)). split; [exact ER|]. split; [now split|]. split; [exact H3|].
  exists e. split; [|split; reflexivity]. rewrite ER. unfold ea_parse, rec_text, rec_lines. cbn [fst snd].
  rewrite split_text.
  2:{ constructor; [assumption|]. eapply Forall_impl; [|exact HB]. now intros ? []. }
  cbn [app]. rewrite H1, H3. 
  pose proof (ea_lines_spec (ea_dict e) [] HN H) as Q. unfold bytes in *. rewrite Q. now destruct e.
Qed.

(** ** ACL *)
Lemma perms_round p : p < 8 -> parse_perms (perm_text p) = Some p.
Proof.
  intros H. assert (HH : p = 0 \/ p = 1 \/ p = 2 \/ p = 3 \/ p = 4 \/ p = 5 \/ p = 6 \/ p = 7) by lia.
  destruct HH as [->|[->|[->|[->|[->|[->|[->| ->]]]]]]]; reflexivity.
Qed.
Lemma perms_last p : exists a b c, perm_text p = [a; b; c] /\ Forall (fun c => In c (bs "rwx-")) [a; b; c].
Proof.
  unfold perm_text. do 3 eexists. split; [reflexivity|].
  change (bs "rwx-") with [chr 114; chr 119; chr 120; chr 45].
  destruct (N.testbit p 2), (N.testbit p 1), (N.testbit p 0);
    (constructor; [|constructor; [|constructor; [|constructor]]]); cbn [In]; tauto.
Qed.
Lemma letter_not_digit c : letter c -> is_digit c = false /\ c <> chr 45 /\ c <> chr 43.
Proof.
  unfold letter, is_digit. intros H. split; [lia|]. split; intros ->;
  [change (ord (chr 45)) with 45 in H|change (ord (chr 43)) with 43 in H]; lia.
Qed.
Lemma login_not_int n : login n -> parse_Z n = None.
Proof.
  intros ((c & Hi & Hc) & _). apply letter_not_digit in Hc as (Hd & H1 & H2).
  assert (HN : forall s, In c s -> parse_N s = None).
  { intros s Hs. destruct s as [|a s]; [reflexivity|]. unfold parse_N. destruct (forallb is_digit (a :: s)) eqn:E; [|reflexivity].
    rewrite forallb_forall in E. apply E in Hs. congruence. }
  destruct n as [|a n]; [destruct Hi|]. unfold parse_Z.
  destruct (Ascii.eqb_spec a (chr 45)) as [->|E1].
  { destruct Hi as [Hi|Hi]; [now elim H1|]. now rewrite HN. }
  destruct (Ascii.eqb_spec a (chr 43)) as [->|E2].
  { destruct Hi as [Hi|Hi]; [now elim H2|]. now rewrite HN. }
  now rewrite HN.
Qed.
Definition read_back (e : entry) : entry :=
  mk_entry (e_tag e) (match e_pair e with
             | None => None
             | Some (_, Some n) => Some (None, Some n)
             | Some (i, None) => Some (i, None)
             end) (e_perms e).
(** a line of text that can be read *)
Definition aline (s : bytes) : Prop :=
  ~ In nl s /\ ~ In (chr 35) s /\ exists c r d, s = c :: r ++ [d] /\ is_space c = false /\ is_space d = false.
Lemma aline_read s : aline s -> strip (fst (break_on (chr 35) s)) = s /\ s <> [].
Proof.
  intros (H1 & H2 & c & r & d & -> & H3 & H4). rewrite break_on_nosep by assumption. cbn [fst].
  rewrite strip_id by assumption. split; [reflexivity|discriminate].
Qed.
Lemma rwx_facts c : In c (bs "rwx-") -> c <> nl /\ c <> chr 35 /\ c <> chr 58 /\ is_space c = false.
Proof. intros H. vm_compute in H. destruct H as [<-|[<-|[<-|[<-|[]]]]]; repeat split; try discriminate; reflexivity. Qed.

Lemma entry_round kind q p tag pr :
  p < 8 -> In kind [bs "user"; bs "group"; bs "mask"; bs "other"] ->
  ~ In (chr 58) q -> ~ In (chr 35) q -> ~ In nl q ->
  text_entry (kind ++ bs ":" ++ q ++ bs ":" ++ perm_text p) = Some (mk_entry tag pr p) ->
  let s := kind ++ bs ":" ++ q ++ bs ":" ++ perm_text p in
  aline s /\ starts_with (bs "default:") s = false.
Proof.
  intros Hp Hk Q1 Q2 Q3 _ s. destruct (perms_last p) as (a & b & c & E & F).
  inversion F as [|? ? F1 F']; subst. inversion F' as [|? ? F2 F'']; subst. inversion F'' as [|? ? F3 _]; subst.
  apply rwx_facts in F1 as (A1 & A2 & A3 & A4), F2 as (B1 & B2 & B3 & B4), F3 as (C1 & C2 & C3 & C4).
  assert (KF : ~ In nl kind /\ ~ In (chr 35) kind /\ exists k0 k1, kind = k0 :: k1 /\ is_space k0 = false).
  { cbn [In] in Hk. destruct Hk as [<-|[<-|[<-|[<-|[]]]]]; vm_compute; (split; [intuition discriminate|]); (split; [intuition discriminate|]);
    do 2 eexists; split; reflexivity. }
  destruct KF as (K1 & K2 & k0 & k1 & Ek & K3).
  unfold s. rewrite E. split.
  - split; [|split].
    + rewrite !in_app_iff. cbn [In]. change (bs ":") with [chr 58]. cbn [In].
      intros [H|[[H|[]]|[H|[[H|[]]|[H|[H|[H|[]]]]]]]]; try discriminate H; auto; now symmetry in H.
    + rewrite !in_app_iff. cbn [In]. change (bs ":") with [chr 58]. cbn [In].
      intros [H|[[H|[]]|[H|[[H|[]]|[H|[H|[H|[]]]]]]]]; try discriminate H; auto; now symmetry in H.
    + rewrite Ek. exists k0, (k1 ++ bs ":" ++ q ++ bs ":" ++ [a; b]), c. split; [|now split].
      cbn [app]. f_equal. rewrite <- !app_assoc. reflexivity.
  - cbn [In] in Hk. destruct Hk as [<-|[<-|[<-|[<-|[]]]]]; reflexivity.
Qed.
Lemma split3 kind q p : ~ In (chr 58) kind -> ~ In (chr 58) q ->
  split_on (chr 58) (kind ++ bs ":" ++ q ++ bs ":" ++ perm_text p) = [kind; q; perm_text p].
Proof.
  intros H1 H2. change (bs ":") with [chr 58]. cbn [app].
  rewrite split_on_app by assumption. rewrite split_on_app by assumption.
  rewrite split_on_nosep; [reflexivity|].
  destruct (perms_last p) as (a & b & c & -> & F). intros Hi. rewrite Forall_forall in F. apply F, rwx_facts in Hi. tauto.
Qed.

(** the text of an entry, and what it is read as *)
Lemma entry_text_spec e : entry_ok e -> exists s, entry_text e = Some s /\ aline s /\
  starts_with (bs "default:") s = false /\ text_entry s = Some (read_back e).
Proof.
  intros (Hp & H). destruct e as [t pr p]. cbn [e_tag e_pair e_perms] in *.
  assert (HG : forall kind q tg pr', In kind [bs "user"; bs "group"; bs "mask"; bs "other"] ->
    ~ In (chr 58) q -> ~ In (chr 35) q -> ~ In nl q ->
    tag_pair kind q = Some (tg, pr') ->
    let s := kind ++ bs ":" ++ q ++ bs ":" ++ perm_text p in
    aline s /\ starts_with (bs "default:") s = false /\ text_entry s = Some (mk_entry tg pr' p)).
  { intros kind q tg pr' Hk Q1 Q2 Q3 E s.
    assert (T : text_entry s = Some (mk_entry tg pr' p)).
    { unfold text_entry, s. rewrite split3; [|cbn [In] in Hk; destruct Hk as [<-|[<-|[<-|[<-|[]]]]]; vm_compute; intuition discriminate|assumption].
      rewrite perms_round by assumption. now rewrite E. }
    destruct (entry_round kind q p tg pr' Hp Hk Q1 Q2 Q3 T) as [A B]. split; [exact A|split; [exact B|exact T]]. }
  destruct H as [[Ht Hq]|[Ht (id & n & Hq & Hn)]]; subst pr.
  - assert (Ht' : t = chr 85 \/ t = chr 71 \/ t = chr 77 \/ t = chr 79).
    { vm_compute in Ht. destruct Ht as [<-|[<-|[<-|[<-|[]]]]]; auto. }
    destruct Ht' as [->|[->|[->| ->]]]; eexists; (split; [reflexivity|]);
      (match goal with |- aline (?k ++ _) /\ _ =>
         first [apply (HG (bs "user") [] (chr 85) None)|apply (HG (bs "group") [] (chr 71) None)
               |apply (HG (bs "mask") [] (chr 77) None)|apply (HG (bs "other") [] (chr 79) None)] end);
      try reflexivity; try (intros []); cbn [In]; tauto.
  - set (q := match n with Some m => m | None => dec_Z id end).
    assert (Q : q <> [] /\ ~ In (chr 58) q /\ ~ In (chr 35) q /\ ~ In nl q /\
       (if parse_Z q then True else True) /\
       (match parse_Z q with Some z => (Some z, None) | None => (None, Some q) end
        = match n with Some m => (None, Some m) | None => (Some id, None) end)).
    { destruct n as [m|]; unfold q.
      - pose proof (login_not_int m Hn) as HI. destruct Hn as ((c & Hi & _) & H1 & H2 & H3).
        split; [now intros ->|]. repeat split; try assumption; now rewrite HI.
      - destruct (dec_Z_word id) as [W1 W2]. split; [assumption|].
        split; [now apply dec_Z_no|]. split; [now apply dec_Z_no|]. split; [assumption|].
        now rewrite parse_Z_dec_Z. }
    destruct Q as (Q0 & Q1 & Q2 & Q3 & _ & Q4).
    assert (Ho : owner_text (Some (Some id, n)) = Some q).
    { unfold q in *. destruct n as [[|a m]|]; [congruence|reflexivity|reflexivity]. }
    assert (HR : match (Some (Some id, n) : option (option Z * option bytes)) with None => None
             | Some (_, Some n) => Some (None, Some n) | Some (i, None) => Some (i, None) end =
             Some (match n with Some m => (None, Some m) | None => (Some id, None) end)) by (destruct n; reflexivity).
    unfold read_back. cbn [e_tag e_pair e_perms]. rewrite HR. rewrite <- Q4.
    assert (Ht' : t = chr 117 \/ t = chr 103) by (vm_compute in Ht; destruct Ht as [<-|[<-|[]]]; auto).
    destruct Ht' as [-> | ->]; unfold entry_text; cbn [e_tag e_pair e_perms]; rewrite Ho; cbn [option_map].
    + exists (bs "user" ++ bs ":" ++ q ++ bs ":" ++ perm_text p). split.
      { change (ord (chr 117) =? 85) with false. change (ord (chr 117) =? 117) with true. cbn [option_map].
        f_equal. change (bs "user:") with (bs "user" ++ bs ":"). now rewrite <- !app_assoc. }
      apply HG; try assumption; [cbn [In]; tauto|]. destruct q; [congruence|reflexivity].
    + exists (bs "group" ++ bs ":" ++ q ++ bs ":" ++ perm_text p). split.
      { change (ord (chr 103) =? 85) with false. change (ord (chr 103) =? 117) with false.
        change (ord (chr 103) =? 71) with false. change (ord (chr 103) =? 103) with true. cbn [option_map].
        f_equal. change (bs "group:") with (bs "group" ++ bs ":"). now rewrite <- !app_assoc. }
      apply HG; try assumption; [cbn [In]; tauto|]. destruct q; [congruence|reflexivity].
Qed.
Lemma all_some_spec {A B} (f : A -> option B) (P : A -> B -> Prop) l : (forall x, In x l -> exists y, f x = Some y /\ P x y) ->
  exists ys, all_some (map f l) = Some ys /\ Forall2 P l ys.
Proof.
  induction l as [|x l IH]; intros H; [exists []; split; [reflexivity|constructor]|].
  destruct (H x (or_introl eq_refl)) as (y & E & Py). destruct IH as (ys & E2 & F); [intros; apply H; now right|].
  exists (y :: ys). cbn [map all_some]. rewrite E, E2. split; [reflexivity|now constructor].
Qed.
Definition reads_as (e : entry) (s : bytes) : Prop :=
  aline s /\ starts_with (bs "default:") s = false /\ text_entry s = Some (read_back e).
Lemma acl_lines_plain es ss rest l d : Forall2 reads_as es ss ->
  acl_lines (ss ++ rest) l d = acl_lines rest (l ++ map read_back es) d.
Proof.
  intros F. revert l. induction F as [|e s es ss (A & B & C) F IH]; intros l; [cbn; now rewrite app_nil_r|].
  cbn [app acl_lines]. destruct (aline_read s A) as [E N]. rewrite E, B, C.
  destruct s; [congruence|]. rewrite IH. cbn [map]. now rewrite <- app_assoc.
Qed.
Lemma aline_default s : aline s -> aline (bs "default:" ++ s).
Proof.
  intros (H1 & H2 & c & r & d & -> & H3 & H4). split; [|split].
  - rewrite in_app_iff. intros [H|H]; [vm_compute in H; intuition discriminate|contradiction].
  - rewrite in_app_iff. intros [H|H]; [vm_compute in H; intuition discriminate|contradiction].
  - exists (chr 100), (bs "efault:" ++ c :: r), d. split; [|split; [reflexivity|assumption]].
    change (bs "default:") with (chr 100 :: bs "efault:"). cbn [app]. now rewrite <- app_assoc.
Qed.
Lemma acl_lines_default es ss rest l d : Forall2 reads_as es ss ->
  acl_lines (map (app (bs "default:")) ss ++ rest) l d = acl_lines rest l (d ++ map read_back es).
Proof.
  intros F. revert d. induction F as [|e s es ss (A & B & C) F IH]; intros d; [cbn; now rewrite app_nil_r|].
  cbn [map app acl_lines]. destruct (aline_read _ (aline_default s A)) as [E N]. rewrite E.
  replace (starts_with (bs "default:") (bs "default:" ++ s)) with true by (symmetry; apply starts_with_spec; now exists s).
  replace (skipn 8 (bs "default:" ++ s)) with s by reflexivity. rewrite C.
  destruct (bs "default:" ++ s); [congruence|]. rewrite IH. now rewrite <- app_assoc.
Qed.
Lemma same_read_back es : Forall2 same_entry es (map read_back es).
Proof. induction es as [|e es IH]; constructor; [repeat split|assumption]. Qed.
Definition acl_wr (a : acl) : bytes := match acl_record a with Some r => r | None => [] end.
Lemma acl_codes a : acl_ok a -> a_list a <> [] ->
  acl_record a <> None /\ codes FILE_HDR acl_index acl_parse a_index acl_wr a_index same_acl a.
Proof.
  intros (Hp & HL & HD & _) Hne.
  destruct (all_some_spec entry_text reads_as (a_list a)) as (ls & EL & FL).
  { intros e He. rewrite Forall_forall in HL. exact (entry_text_spec e (HL _ He)). }
  destruct (all_some_spec entry_text reads_as (a_default a)) as (ds & ED & FD).
  { intros e He. rewrite Forall_forall in HD. exact (entry_text_spec e (HD _ He)). }
  assert (Hls : ls <> []) by (intros ->; inversion FL as [Q|]; now apply Hne).
  destruct (file_hdr_ok _ Hp) as (H1 & H2 & H3).
  set (h := FILE_HDR ++ acl_quote (index_path (a_index a))) in *.
  set (body := ls ++ map (app (bs "default:")) ds).
  assert (ER : acl_record a = Some (rec_text (h, body))).
  { unfold acl_record, acl_str. destruct (a_list a) as [|e0 el]; [congruence|]. rewrite EL, ED. fold body.
    unfold rec_text, rec_lines. cbn [fst snd]. rewrite text_cons.
    assert (body <> []) by (unfold body; destruct ls; [congruence|discriminate]).
    destruct body as [|b bd]; [congruence|]. rewrite <- join_nl_text. unfold h. now rewrite <- !app_assoc. }
  split; [rewrite ER; discriminate|].
  assert (HB : Forall (fun l => one_line l /\ starts_with FILE_HDR l = false) body).
  { assert (G : forall s, aline s -> one_line s /\ starts_with FILE_HDR s = false).
    { intros s (A1 & A2 & _). split; [exact A1|]. destruct (starts_with FILE_HDR s) eqn:E; [|reflexivity].
      apply starts_with_spec in E as (t & ->). exfalso. apply A2. now left. }
    unfold body. apply Forall_app. split; [|apply Forall_map]; eapply Forall_impl;
      [exact G| |intros s; apply (fun H => G _ (aline_default s H))|].
    - clear - FL. induction FL as [|? ? ? ? (A & _)]; now constructor.
    - clear - FD. induction FD as [|? ? ? ? (A & _)]; now constructor. }
  exists (h, body). unfold acl_wr. rewrite ER. split; [reflexivity|]. split; [now split|]. split; [exact H3|].
  exists (mk_acl (a_index a) (map read_back (a_list a)) (map read_back (a_default a))). split; [|split].
  - unfold acl_parse, rec_text, rec_lines. cbn [fst snd]. rewrite text_cons, break_on_app by assumption.
    rewrite H1, H3. rewrite split_text by (eapply Forall_impl; [|exact HB]; now intros ? []).
    unfold body. rewrite <- app_assoc. rewrite (acl_lines_plain (a_list a)) by assumption.
    rewrite (acl_lines_default (a_default a)) by assumption. reflexivity.
  - split; [reflexivity|]. cbn [a_list a_default]. split; apply same_read_back.
  - reflexivity.
Qed.
