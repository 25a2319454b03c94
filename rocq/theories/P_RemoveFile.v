(** * C38: removing a path from the repository *)
From Coq Require Import List ZArith Bool Ascii Lia.
From Verif Require Import Base L_Base M_Iter L_Iter M_Quoting L_Quoting M_Time M_IncName L_IncName M_Rorp M_Meta L_Meta S_Meta L_MetaAttr P_Meta
  M_EaAcl S_EaAcl L_EaAcl P_EaAcl M_CCPP M_FileStats S_FileStats P_FileStats M_RemoveFile L_RemoveFile S_RemoveFile.
Import List ListNotations.
Local Open Scope Z_scope.

Lemma at_or_below_prefix p q : at_or_below p q = is_prefix p q.
Proof.
  symmetry. destruct (at_or_below p q) eqn:E.
  - apply is_prefix_spec. revert q E. induction p as [|a p IH]; intros q E; [now exists q|].
    destruct q as [|b q]; [discriminate|]. cbn in E. apply andb_prop in E. destruct E as [E1 E2].
    apply beq_bytes_true in E1. subst b. destruct (IH q E2) as [r ->]. now exists r.
  - destruct (is_prefix p q) eqn:E2; [|reflexivity]. apply is_prefix_spec in E2. destruct E2 as [r ->].
    exfalso. induction p as [|a p IH]; [discriminate|]. cbn in E. rewrite beq_bytes_refl in E. now apply IH.
Qed.

(** ** file statistics *)
Lemma rm_stats q ls sk : rm_loop FileStatistics q sk ls =
  (filter (fun l => negb (matches FileStatistics q l)) ls, existsb (matches FileStatistics q) ls, []).
Proof.
  revert sk. induction ls as [|l r IH]; intros sk; [reflexivity|].
  cbn [rm_loop filter existsb]. assert (M : starts_with (marker FileStatistics) l = true) by (destruct l; reflexivity).
  rewrite M, andb_false_r. cbn [andb]. destruct (matches FileStatistics q l); now rewrite IH.
Qed.
Lemma Q_sep c0 : c0 <> nl -> c0 <> bslash -> forall p q x y, ~ In c0 y \/ c0 = chr 32 ->
  quote_path p ++ c0 :: x = quote_path q ++ chr 32 :: y ->
  (exists r, q = p ++ c0 :: r) \/ (p = q /\ c0 = chr 32) \/ (c0 = chr 32 /\ exists r, p = q ++ chr 32 :: r).
Proof.
  intros N1 N2. destruct quote_path_code as (H0 & H1 & H2 & H3 & H4).
  assert (S0 : qp_code c0 = [c0]).
  { unfold qp_code. apply Ascii.eqb_neq in N1, N2. now rewrite N1, N2. }
  assert (S1 : qp_code (chr 32) = [chr 32]) by reflexivity.
  induction p as [|c p IH]; intros q x y Hy E.
  - cbn [quote_path app] in E. destruct q as [|d q].
    + cbn in E. injection E as -> _. right; left. easy.
    + rewrite H1, <- app_assoc in E. assert (K : qp_code c0 ++ x = qp_code d ++ quote_path q ++ chr 32 :: y) by (rewrite S0; exact E).
      apply H2 in K. destruct K as [<- _]. left. now exists q.
  - rewrite H1, <- app_assoc in E. destruct q as [|d q].
    + assert (K : qp_code c ++ quote_path p ++ c0 :: x = qp_code (chr 32) ++ y) by (rewrite S1; exact E).
      apply H2 in K. destruct K as [-> K]. destruct Hy as [Hy|Hy].
      * exfalso. apply Hy. rewrite <- K. apply in_or_app. right. now left.
      * right; right. split; [exact Hy|]. now exists p.
    + rewrite H1, <- app_assoc in E. apply H2 in E. destruct E as [<- E].
      destruct (IH q x y Hy E) as [[r ->]|[[-> ->]|[Hc [r ->]]]].
      * left. now exists r.
      * right; left. easy.
      * right; right. split; [exact Hc|]. now exists r.
Qed.

Lemma tail_no_slash (o : option crorp) : ~ In (chr 47) (size_text o).
Proof.
  unfold size_text. destruct o as [r|]; [|cbn; intuition discriminate].
  destruct (q_reg r); [|cbn; intuition discriminate]. apply dec_Z_no; [reflexivity|discriminate].
Qed.
Lemma stat_line_shape w : exists t, line_of w = quote_path (index_path (w_index w)) ++ chr 32 :: t
  /\ ~ In (chr 47) t /\ ~ In nl t.
Proof.
  unfold line_of, stat_line. cbn [join_with]. change (bs " ") with [chr 32]. cbn [app]. eexists. split; [reflexivity|].
  assert (Z0 : forall o, ~ In nl (size_text o)).
  { intros o. unfold size_text. destruct o as [r|]; [|cbn; intuition discriminate].
    destruct (q_reg r); [|cbn; intuition discriminate]. apply dec_Z_no; [reflexivity|discriminate]. }
  assert (G : forall c, (forall o, ~ In c (size_text o)) -> c <> chr 32 -> ~ In c (if w_changed w then bs "1" else bs "0") ->
     ~ In c ((if w_changed w then bs "1" else bs "0") ++ chr 32 :: size_text (w_src w) ++ chr 32 :: size_text (w_dst w) ++ chr 32 :: size_text (w_inc w))).
  { intros c H1 H2 H3. rewrite in_app_iff. intros [K|[K|K]]; [now apply H3|now symmetry in K|].
    rewrite in_app_iff in K. destruct K as [K|[K|K]]; [now apply H1 in K|now symmetry in K|].
    rewrite in_app_iff in K. destruct K as [K|[K|K]]; [now apply H1 in K|now symmetry in K|now apply H1 in K]. }
  split; apply G; try discriminate; try apply tail_no_slash; try apply Z0; destruct (w_changed w); cbn; intuition discriminate.
Qed.
Lemma stats_match p w : p <> [] -> good_path p -> good_path (w_index w) ->
  (at_or_below p (w_index w) = true \/
   starts_with (index_path p ++ bs " ") (index_path (w_index w)) = false
   /\ starts_with (index_path (w_index w) ++ bs " ") (index_path p) = false) ->
  matches FileStatistics (quote_path (index_path p)) (line_of w ++ [nl]) = at_or_below p (w_index w).
Proof.
  intros Hp Gp Gw HC. destruct (stat_line_shape w) as (t & E & Ht & Hn). rewrite E.
  unfold matches. change (bs " ") with [chr 32] in *. change (bs "/") with [chr 47].
  rewrite at_or_below_prefix in *. destruct (is_prefix p (w_index w)) eqn:EP.
  - apply orb_true_iff. destruct (index_path_inside p (w_index w) Hp EP) as [->|[r Er]].
    + left. apply starts_with_spec. exists (t ++ [nl]). rewrite <- !app_assoc. reflexivity.
    + right. apply starts_with_spec. rewrite Er, (Q_app quote_path qp_code) by apply quote_path_code.
      exists (quote_path r ++ chr 32 :: t ++ [nl]). rewrite <- !app_assoc. cbn [app]. 
      change (quote_path (chr 47 :: r)) with (chr 47 :: quote_path r). cbn [app]. reflexivity.
  - destruct HC as [HC|[C1 C2]]; [discriminate|]. apply orb_false_iff. split.
    + match goal with |- ?X = false => destruct X eqn:K; [|reflexivity] end. apply starts_with_spec in K. destruct K as [x K].
      rewrite <- !app_assoc in K. cbn [app] in K. symmetry in K.
      apply Q_sep in K; [|discriminate|discriminate|now right].
      destruct K as [[r K]|[[K _]|[_ [r K]]]].
      * exfalso. assert (starts_with (index_path p ++ [chr 32]) (index_path (w_index w)) = true) by (apply starts_with_spec; exists r; rewrite K, <- app_assoc; reflexivity). congruence.
      * apply index_path_inj in K; try assumption. rewrite <- K in EP.
        assert (is_prefix p p = true) by (apply is_prefix_spec; exists []; now rewrite app_nil_r). congruence.
      * exfalso. assert (starts_with (index_path (w_index w) ++ [chr 32]) (index_path p) = true) by (apply starts_with_spec; exists r; rewrite K, <- app_assoc; reflexivity). congruence.
    + match goal with |- ?X = false => destruct X eqn:K; [|reflexivity] end. apply starts_with_spec in K. destruct K as [x K].
      rewrite <- !app_assoc in K. cbn [app] in K. symmetry in K.
      apply Q_sep in K; [|discriminate|discriminate|].
      * destruct K as [[r K]|[[_ K]|[K _]]]; try discriminate.
        apply index_path_below in K; try assumption. congruence.
      * left. rewrite in_app_iff. intros [K2|[K2|[]]]; [now apply Ht|discriminate].
Qed.
Lemma header_no_match p : good_path p -> p <> [] -> starts_with (bs "#") (index_path p) = false ->
  forall h, In h header -> matches FileStatistics (quote_path (index_path p)) (h ++ [nl]) = false.
Proof.
  intros Gp Hp H h Hh. pose proof (index_path_ne p Gp) as Hne.
  destruct (index_path p) as [|c r] eqn:E; [congruence|].
  assert (Hc : c <> chr 35).
  { intros ->. cbn in H. discriminate. }
  assert (K : forall s t, starts_with (quote_path (c :: r) ++ s) (chr 35 :: t) = false).
  { intros s t. match goal with |- ?X = false => destruct X eqn:K; [|reflexivity] end. apply starts_with_spec in K. destruct K as [u K].
    exfalso. cbn [quote_path] in K. destruct (Ascii.eqb c nl); [discriminate|]. destruct (Ascii.eqb c bslash); [discriminate|].
    injection K as K _. now apply Hc. }
  destruct Hh as [<-|[<-|[]]]; unfold matches; apply orb_false_iff; split; apply K.
Qed.
Lemma filter_app_all {A} (f : A -> bool) a b : (forall x, In x a -> f x = true) -> filter f (a ++ b) = a ++ filter f b.
Proof.
  intros H. rewrite filter_app. f_equal. induction a as [|x a IH]; [reflexivity|]. cbn.
  rewrite H by now left. f_equal. apply IH. intros y Hy. apply H. now right.
Qed.

Lemma remove_stats p l : p <> [] -> good_path p -> well_formed p (Statistics l) ->
  remove_from_metadata false FileStatistics p (text (header ++ map line_of l)) =
  (text (header ++ map line_of (filter (fun x => negb (at_or_below p (w_index x))) l)),
   existsb (fun x => at_or_below p (w_index x)) l, []).
Proof.
  intros Hp Gp (HG & Hh & HS). unfold remove_from_metadata. cbn [quote_fn].
  assert (HO : Forall one_line (header ++ map line_of l)).
  { apply Forall_app. split; [apply Forall_forall; intros h [<-|[<-|[]]]; unfold one_line; cbn; intuition discriminate|].
    apply Forall_map, Forall_forall. intros w Hw. destruct (stat_line_shape w) as (t & -> & _ & Hn).
    unfold one_line. rewrite in_app_iff. intros [K|[K|K]]; [now apply quote_path_no_nl in K|discriminate|now apply Hn]. }
  assert (ER : rlines (text (header ++ map line_of l)) = map (fun x => x ++ [nl]) (header ++ map line_of l)).
  { rewrite <- (app_nil_r (text _)), rlines_text by exact HO. apply app_nil_r. }
  rewrite ER, rm_stats.
  assert (HM : forall w, In w l -> matches FileStatistics (quote_path (index_path p)) (line_of w ++ [nl]) = at_or_below p (w_index w)).
  { intros w Hw. apply stats_match; try assumption; [|now apply HS]. rewrite Forall_forall in HG. apply (HG w Hw). }
  pose proof (header_no_match p Gp Hp Hh) as HH.
  assert (E1 : existsb (matches FileStatistics (quote_path (index_path p))) (map (fun x => x ++ [nl]) (header ++ map line_of l))
    = existsb (fun x => at_or_below p (w_index x)) l).
  { rewrite map_app, existsb_app.
    assert (H0 : existsb (matches FileStatistics (quote_path (index_path p))) (map (fun x => x ++ [nl]) header) = false).
    { cbn [header map existsb]. rewrite !HH by (cbn [header In]; tauto). reflexivity. }
    transitivity (false || existsb (matches FileStatistics (quote_path (index_path p))) (map (fun x => x ++ [nl]) (map line_of l))); [f_equal; exact H0|]. cbn [orb]. rewrite map_map. clear -HM. induction l as [|w l IH]; [reflexivity|].
    cbn [map existsb]. rewrite HM by now left. f_equal. apply IH. intros v Hv. apply HM. now right. }
  assert (E2 : concat (filter (fun x => negb (matches FileStatistics (quote_path (index_path p)) x)) (map (fun x => x ++ [nl]) (header ++ map line_of l)))
    = text (header ++ map line_of (filter (fun x => negb (at_or_below p (w_index x))) l))).
  { unfold text. rewrite map_app, filter_app_all.
    - rewrite (map_app _ header). f_equal. f_equal. rewrite !map_map. clear -HM. induction l as [|w l IH]; [reflexivity|].
      cbn [map filter]. rewrite HM by now left. destruct (at_or_below p (w_index w)); cbn [negb map]; rewrite IH; try reflexivity;
        intros v Hv; apply HM; now right.
    - intros x Hx. apply in_map_iff in Hx. destruct Hx as (h & <- & Hh'). now rewrite HH. }
  rewrite E1. cbn [orb]. destruct (existsb _ l) eqn:E; cbn [negb]; [now rewrite E2|]. now rewrite existsb_filter.
Qed.

(** ** all files *)
Lemma all_written_map {X} (f : X -> option bytes) l : (forall x, In x l -> f x <> None) ->
  all_written (map f l) = Some (map (fun x => some_or_nil (f x)) l).
Proof.
  induction l as [|x l IH]; intros H; [reflexivity|]. cbn [map all_written].
  destruct (f x) as [r|] eqn:E; [|exfalso; apply (H x); [now left|exact E]]. rewrite IH; [reflexivity|].
  intros y Hy. apply H. now right.
Qed.
Lemma filter_comm {A} (f g : A -> bool) l : filter f (filter g l) = filter g (filter f l).
Proof.
  induction l as [|x l IH]; [reflexivity|]. cbn. destruct (g x) eqn:Eg, (f x) eqn:Ef; cbn; rewrite ?Eg, ?Ef; congruence.
Qed.
Lemma existsb_ex {A} (f : A -> bool) l : existsb f l = true <-> exists x, In x l /\ f x = true.
Proof. apply existsb_exists. Qed.

Definition one_file (p : idx) (f : mfile) : Prop :=
  exists k c c' any, stored_file f = Some (k, c) /\ stored_file (without p f) = Some (k, c')
    /\ remove_from_metadata false k p c = (c', any, long_names p f)
    /\ (any = true <-> speaks_of p f).
Lemma one_file_ok p f : p <> [] -> good_path p -> well_formed p f -> one_file p f.
Proof.
  intros Hp Gp W. destruct f as [hl l|l|l|l].
  - cbn [well_formed] in W.
    assert (HA : forall x, In x l -> attr_record hl x <> None /\ shaped MirrorMetadata (fun x => some_or_nil (attr_record hl x)) r_index x).
    { intros x Hx. destruct (W x Hx) as (A & B & _). now apply attr_shaped. }
    exists MirrorMetadata, (write_file (map (fun x => some_or_nil (attr_record hl x)) l)),
      (write_file (map (fun x => some_or_nil (attr_record hl x)) (filter (fun x => negb (at_or_below p (r_index x))) l))),
      (existsb (fun x => is_prefix p (r_index x)) l).
    split; [|split; [|split]].
    + cbn [stored_file]. rewrite all_written_map by (intros x Hx; now apply HA). reflexivity.
    + cbn [stored_file without]. rewrite all_written_map; [reflexivity|]. intros x Hx. apply filter_In in Hx. now apply HA.
    + rewrite !write_file_spec.
      rewrite (remove_records MirrorMetadata qp_code _ r_index) by (try assumption; try discriminate; try apply quote_path_code; apply Forall_forall; intros x Hx; now apply HA).
      f_equal; [f_equal|].
      * f_equal. f_equal. apply filter_ext. intros x. now rewrite at_or_below_prefix.
      * cbn [long_names]. rewrite (filter_ext (fun x => is_prefix p (r_index x)) (fun x => at_or_below p (r_index x))) by (intros x; now rewrite at_or_below_prefix).
        assert (HL : forall x, In x l -> alts_of MirrorMetadata (fun x => some_or_nil (attr_record hl x)) x = long_name (r_data x)).
        { intros x Hx. destruct (W x Hx) as (A & B & C). rewrite attr_alts; try assumption.
          - unfold long_name, alt_name. destruct (r_data x KType) as [[| | |]|]; reflexivity.
          - intros D s Hs. assert (In s (long_name (r_data x))) as K; [|now apply C].
            unfold long_name, alt_name in *. destruct (de_type _ D) as (t & T & _). unfold typed in T. rewrite T. exact Hs. }
        clear -HL. induction l as [|x l IH]; [reflexivity|]. cbn [filter]. 
        assert (IH' := IH (fun y Hy => HL y (or_intror Hy))).
        destruct (at_or_below p (r_index x)); [|exact IH']. cbn [flat_map]. rewrite HL by now left. now rewrite IH'.
    + rewrite existsb_ex. cbn [speaks_of]. setoid_rewrite at_or_below_prefix. reflexivity.
  - cbn [well_formed] in W.
    set (ne := fun e : eas => match ea_dict e with [] => false | _ => true end).
    assert (HF : Forall (shaped ExtendedAttributes ea_record ea_index) (filter ne l)).
    { apply Forall_forall. intros x Hx. apply filter_In in Hx. apply ea_shaped. rewrite Forall_forall in W. now apply W. }
    exists ExtendedAttributes, (ea_file l), (ea_file (filter (fun x => negb (at_or_below p (ea_index x))) l)),
      (existsb (fun x => is_prefix p (ea_index x)) (filter ne l)).
    split; [reflexivity|]. split; [reflexivity|]. split.
    + unfold ea_file. fold ne. rewrite !write_file_spec.
      rewrite (remove_records ExtendedAttributes acl_code _ ea_index) by (try assumption; try discriminate; apply acl_quote_code).
      f_equal; [f_equal|].
      * f_equal. f_equal. rewrite filter_comm. f_equal. apply filter_ext. intros x. now rewrite at_or_below_prefix.
      * cbn [long_names]. assert (G : Forall plain_eas (filter (fun x => is_prefix p (ea_index x)) (filter ne l))).
        { apply Forall_forall. intros x Hx. apply filter_In in Hx. destruct Hx as [Hx _]. apply filter_In in Hx.
          rewrite Forall_forall in W. now apply W. }
        clear -G. induction G as [|x m Hx _ IH]; [reflexivity|]. cbn [flat_map]. rewrite ea_alts by assumption. exact IH.
    + rewrite existsb_ex. cbn [speaks_of]. split.
      * intros (x & Hx & E). apply filter_In in Hx. destruct Hx as [Hx Hn]. exists x. rewrite at_or_below_prefix.
        split; [exact Hx|]. split; [|exact E]. unfold ne in Hn. intros K. rewrite K in Hn. discriminate.
      * intros (x & Hx & Hn & E). exists x. rewrite at_or_below_prefix in E. split; [|exact E]. apply filter_In.
        split; [exact Hx|]. unfold ne. destruct (ea_dict x); [congruence|reflexivity].
  - cbn [well_formed] in W.
    assert (HO : forall x, In x (filter extended l) -> acl_ok x /\ a_list x <> []).
    { intros x Hx. apply filter_In in Hx. destruct Hx as [Hx E]. rewrite Forall_forall in W. split; [now apply W|].
      apply extended_ne; [now apply W|exact E]. }
    assert (HF : Forall (shaped AccessControlLists acl_wr a_index) (filter extended l)).
    { apply Forall_forall. intros x Hx. destruct (HO x Hx). now apply acl_shaped. }
    exists AccessControlLists, (write_file (map acl_wr (filter extended l))),
      (write_file (map acl_wr (filter extended (filter (fun x => negb (at_or_below p (a_index x))) l)))),
      (existsb (fun x => is_prefix p (a_index x)) (filter extended l)).
    split; [|split; [|split]].
    + cbn [stored_file]. unfold acl_file. rewrite acl_records_spec by assumption. reflexivity.
    + cbn [stored_file without]. unfold acl_file. rewrite acl_records_spec; [reflexivity|].
      apply Forall_forall. intros x Hx. apply filter_In in Hx. rewrite Forall_forall in W. now apply W.
    + rewrite !write_file_spec.
      rewrite (remove_records AccessControlLists acl_code _ a_index) by (try assumption; try discriminate; apply acl_quote_code).
      f_equal; [f_equal|].
      * f_equal. f_equal. rewrite filter_comm. f_equal. apply filter_ext. intros x. now rewrite at_or_below_prefix.
      * cbn [long_names]. assert (G : forall x, In x (filter (fun x => is_prefix p (a_index x)) (filter extended l)) -> acl_ok x /\ a_list x <> []).
        { intros x Hx. apply filter_In in Hx. apply HO, Hx. }
        revert G. generalize (filter (fun x => is_prefix p (a_index x)) (filter extended l)). clear. intros m G.
        induction m as [|x m IH]; [reflexivity|]. cbn [flat_map].
        destruct (G x (or_introl eq_refl)). rewrite acl_alts by assumption. apply IH. intros y Hy. apply G. now right.
    + rewrite existsb_ex. cbn [speaks_of]. split.
      * intros (x & Hx & E). apply filter_In in Hx. exists x. rewrite at_or_below_prefix. tauto.
      * intros (x & Hx & Hn & E). exists x. rewrite at_or_below_prefix in E. rewrite filter_In. tauto.
  - eexists FileStatistics, _, _, _. split; [reflexivity|]. split; [reflexivity|]. split.
    + cbn [long_names]. apply remove_stats; assumption.
    + rewrite existsb_ex. reflexivity.
Qed.

(** ** the whole repository *)
Lemma stored_files_some l ms : stored_files l = Some ms -> length ms = length l.
Proof.
  revert ms; induction l as [|f l IH]; cbn; intros ms H; [now injection H as <-|].
  destruct (stored_file f); [|discriminate]. destruct (stored_files l); [|discriminate]. injection H as <-. cbn. f_equal. now apply IH.
Qed.
Lemma clean_ok p l ms : p <> [] -> good_path p -> Forall (well_formed p) l -> stored_files l = Some ms ->
  exists ms' any, clean_metadata false p ms = (ms', any, flat_map (long_names p) l)
    /\ stored_files (map (without p) l) = Some ms' /\ (any = true <-> exists f, In f l /\ speaks_of p f).
Proof.
  intros Hp Gp W. revert ms. induction W as [|f l Wf W IH]; intros ms H.
  - injection H as <-. exists [], false. split; [reflexivity|]. split; [reflexivity|]. split; [discriminate|]. now intros (? & [] & _).
  - cbn in H. destruct (one_file_ok p f Hp Gp Wf) as (k & c & c' & any & E1 & E2 & E3 & E4).
    rewrite E1 in H. destruct (stored_files l) as [xs|] eqn:E; [|discriminate]. injection H as <-.
    destruct (IH xs eq_refl) as (ms' & a2 & F1 & F2 & F3).
    exists ((k, c') :: ms'), (any || a2). split; [|split].
    + unfold clean_metadata in *. cbn [map fst snd]. rewrite E3. cbn [fst snd existsb flat_map].
      injection F1 as G1 G2 G3. rewrite G1, G2, G3. reflexivity.
    + cbn [map stored_files]. now rewrite E2, F2.
    + rewrite orb_true_iff, E4, F3. split.
      * intros [H|(g & H1 & H2)]; [exists f; split; [now left|exact H]|exists g; split; [now right|exact H2]].
      * intros (g & [<-|H1] & H2); [now left|right; now exists g].
Qed.

Lemma increment_of_iff q x : q <> [] -> (increment_of x q <->
  exists n, x = removelast q ++ [n] /\ exists c ts t ty, parse_increment_name n = Some (c, ts, t, ty, last q [])).
Proof.
  intros Hq. split.
  - intros (d & n & b & -> & -> & H). rewrite removelast_last, last_last. now exists n.
  - intros (n & -> & H). exists (removelast q), n, (last q []). split; [reflexivity|]. split; [now apply app_removelast_last|exact H].
Qed.
Lemma incfiles_increments q a x : q <> [] -> (In x (incfiles_of q a) <-> In x a /\ increment_of x q).
Proof. intros Hq. rewrite incfiles_in, increment_of_iff by assumption. reflexivity. Qed.
Lemma tree_lstat a q x : tree_like a -> q <> [] -> In x a -> at_or_below q x = true -> lstat q a = true.
Proof.
  intros T Hq Hx H. rewrite at_or_below_prefix in H. apply is_prefix_spec in H. destruct H as [r ->].
  apply lstat_in. eapply T; [exact Hx|reflexivity|exact Hq].
Qed.
Lemma remove_with_incs_spec q a : q <> [] -> tree_like a -> forall x,
  In x (remove_with_incs q a) <-> In x a /\ ~ belongs_to a q x.
Proof.
  intros Hq T x. rewrite remove_with_incs_in. split.
  - intros (H & H1 & H2). split; [exact H|]. intros [K|(y & Hy & I & K)].
    + pose proof (tree_lstat _ _ _ T Hq H K) as L. rewrite at_or_below_prefix in K. rewrite (H1 L) in K. discriminate.
    + rewrite at_or_below_prefix in K. rewrite (H2 y) in K; [discriminate|]. now apply incfiles_increments.
  - intros (H & N). split; [exact H|]. split.
    + intros _. destruct (is_prefix q x) eqn:E; [|reflexivity]. exfalso. apply N. left. now rewrite at_or_below_prefix.
    + intros y Hy. destruct (is_prefix y x) eqn:E; [|reflexivity]. exfalso. apply N. right. exists y.
      apply incfiles_increments in Hy; [|assumption]. rewrite at_or_below_prefix. tauto.
Qed.
Lemma at_or_below_trans a b c : at_or_below a b = true -> at_or_below b c = true -> at_or_below a c = true.
Proof.
  rewrite !at_or_below_prefix, !is_prefix_spec. intros [r ->] [s ->]. exists (r ++ s). now rewrite app_assoc.
Qed.
Lemma removed_tree q a : q <> [] -> tree_like a -> tree_like (remove_with_incs q a).
Proof.
  intros Hq T x d n Hx -> Hd. apply remove_with_incs_spec in Hx; try assumption. destruct Hx as [H N].
  assert (K : at_or_below d (d ++ n) = true) by (rewrite at_or_below_prefix; apply is_prefix_spec; now exists n).
  apply remove_with_incs_spec; try assumption. split; [eapply T; [exact H|reflexivity|exact Hd]|].
  intros [B|(y & Hy & I & B)]; apply N; [left; eapply at_or_below_trans; eassumption|].
  right. exists y. split; [exact Hy|]. split; [exact I|]. eapply at_or_below_trans; eassumption.
Qed.
Lemma increment_of_ne y q : increment_of y q -> y <> [].
Proof. intros (d & n & b & -> & _) K. now apply app_eq_nil in K. Qed.
Lemma removed_names ns : forall a, tree_like a -> forall x,
  In x (fold_left (fun a n => remove_with_incs [n] a) ns a) <->
  In x a /\ ~ exists n, In n ns /\ belongs_to a [n] x.
Proof.
  induction ns as [|n ns IH]; intros a T x; cbn [fold_left].
  - split; [intros H; split; [exact H|intros (? & [] & _)]|now intros []].
  - assert (Hn : [n] <> []) by discriminate. rewrite IH by now apply removed_tree.
    rewrite remove_with_incs_spec by assumption. split.
    + intros [[H1 H2] H3]. split; [exact H1|]. intros (m & [<-|Hm] & B); [now apply H2|].
      apply H3. exists m. split; [exact Hm|]. destruct B as [B|(y & Hy & I & B)]; [now left|].
      right. exists y. split; [|now split]. apply remove_with_incs_spec; try assumption. split; [exact Hy|].
      intros [C|(z & Hz & J & C)]; apply H2; [left; eapply at_or_below_trans; eassumption|].
      right. exists z. split; [exact Hz|]. split; [exact J|]. eapply at_or_below_trans; eassumption.
    + intros [H1 H2]. split; [split; [exact H1|]|].
      * intros B. apply H2. exists n. split; [now left|exact B].
      * intros (m & Hm & B). apply H2. exists m. split; [now right|].
        destruct B as [B|(y & Hy & I & B)]; [now left|]. right. exists y. split; [|now split].
        apply remove_with_incs_spec in Hy; tauto.
Qed.

(** Exactly what belongs to the path is removed: in every metadata file what is about the
    path and below, in the mirror the path and what is below, and the increments of both,
    wherever they are kept; and the result tells whether there was something. *)
Theorem C38_remove_file p files metas incs mirror long :
  p <> [] -> good_path p -> Forall (well_formed p) files -> stored_files files = Some metas ->
  tree_like incs -> tree_like mirror -> tree_like long ->
  exists metas' incs' mirror' long' found,
    remove_file false p (mk_rrepo metas incs mirror long) = (mk_rrepo metas' incs' mirror' long', found)
    /\ stored_files (map (without p) files) = Some metas'
    /\ (forall x, In x mirror' <-> In x mirror /\ at_or_below p x = false)
    /\ (forall x, In x incs' <-> In x incs /\ ~ belongs_to incs p x)
    /\ (forall x, In x long' <-> In x long /\ ~ exists n f, In f files /\ In n (long_names p f) /\ belongs_to long [n] x)
    /\ (found = true <-> (exists f, In f files /\ speaks_of p f) \/ In p mirror \/ (exists x, In x incs /\ belongs_to incs p x)).
Proof.
  intros Hp Gp W S TI TM TL. destruct (clean_ok p files metas Hp Gp W S) as (metas' & any & E1 & E2 & E3).
  unfold remove_file. cbn [rr_meta rr_incs rr_mirror rr_long]. rewrite E1.
  eexists metas', _, _, _, _. split; [reflexivity|]. split; [exact E2|]. split; [|split; [|split]].
  - intros x. destruct (lstat p mirror) eqn:E.
    + rewrite delete_tree_in. now rewrite at_or_below_prefix.
    + split; [|tauto]. intros H. split; [exact H|]. destruct (at_or_below p x) eqn:K; [|reflexivity].
      rewrite (tree_lstat _ _ _ TM Hp H K) in E. discriminate.
  - now apply remove_with_incs_spec.
  - intros x. rewrite removed_names by assumption. split; intros [H N]; (split; [exact H|]); intros K; apply N.
    + destruct K as (n & f & H1 & H2 & H3). exists n. split; [|exact H3]. apply in_flat_map. now exists f.
    + destruct K as (n & H1 & H3). apply in_flat_map in H1. destruct H1 as (f & H1 & H2). now exists n, f.
  - rewrite !orb_true_iff, E3, !lstat_in. split.
    + intros [[[H|H]|H]|H]; [now left| |right; right|right; now left].
      * right; right. destruct (incfiles_of p incs) as [|y ys] eqn:E; [discriminate|].
        assert (K : In y (incfiles_of p incs)) by (rewrite E; now left). apply incfiles_increments in K; [|assumption].
        exists y. split; [tauto|]. right. exists y. split; [tauto|]. split; [tauto|].
        rewrite at_or_below_prefix. apply is_prefix_spec. exists []. now rewrite app_nil_r.
      * exists p. split; [exact H|]. left. rewrite at_or_below_prefix. apply is_prefix_spec. exists []. now rewrite app_nil_r.
    + intros [H|[H|(x & Hx & [K|(y & Hy & I & _)])]]; [now left; left; left|now right| |].
      * left; right. apply lstat_in. eapply tree_lstat; eassumption.
      * left; left; right. assert (K : In y (incfiles_of p incs)) by now apply incfiles_increments.
        destruct (incfiles_of p incs); [destruct K|reflexivity].
Qed.

(** Nothing of another path is touched: what is not at or below the path stays in the mirror,
    its increments stay, and its records stay. *)
Theorem C38_others_untouched p files metas incs mirror long q :
  p <> [] -> good_path p -> Forall (well_formed p) files -> stored_files files = Some metas ->
  tree_like incs -> tree_like mirror -> tree_like long ->
  no_odd_directory incs -> parse_increment_name (last p []) = None ->
  at_or_below p q = false ->
  let r' := fst (remove_file false p (mk_rrepo metas incs mirror long)) in
  (In q mirror -> In q (rr_mirror r'))
  /\ (forall x, In x incs -> increment_of x q -> In x (rr_incs r'))
  /\ (forall hl l x, In (Attributes hl l) files -> In x l -> r_index x = q ->
        exists l', In x l' /\ In (Attributes hl l') (map (without p) files)).
Proof.
  intros Hp Gp W S TI TM TL OD NP Hq.
  destruct (C38_remove_file p files metas incs mirror long) as (m' & i' & mi' & lo' & fd & E & E1 & E2 & E3 & E4 & E5); try assumption.
  cbv zeta. rewrite E. cbn [fst rr_mirror rr_incs]. split; [|split].
  - intros H. now apply E2.
  - intros x Hx (d & n & b & -> & -> & c & ts & t & ty & PI). apply E3. split; [exact Hx|]. intros [B|(y & Hy & I & B)].
    + rewrite at_or_below_prefix in B. apply is_prefix_spec in B. destruct B as [r B].
      destruct r as [|z r _] using rev_ind.
      * rewrite app_nil_r in B. rewrite <- B, last_last in NP. congruence.
      * rewrite app_assoc in B. apply app_inj_tail in B. destruct B as [-> _].
        rewrite at_or_below_prefix in Hq. assert (K : is_prefix p ((p ++ r) ++ [b]) = true) by (apply is_prefix_spec; exists (r ++ [b]); now rewrite app_assoc). congruence.
    + destruct I as (d2 & n2 & b2 & -> & -> & c2 & ts2 & t2 & ty2 & PI2).
      assert (K : d ++ [n] = d2 ++ [n2]) by (apply OD; try assumption; congruence).
      apply app_inj_tail in K. destruct K as [-> ->].
      assert (b2 = b) by congruence. subst b2. rewrite at_or_below_prefix in Hq.
      assert (K : is_prefix (d2 ++ [b]) (d2 ++ [b]) = true) by (apply is_prefix_spec; exists []; now rewrite app_nil_r). congruence.
  - intros hl l x Hf Hx <-. exists (filter (fun x => negb (at_or_below p (r_index x))) l). split.
    + apply filter_In. split; [exact Hx|]. now rewrite Hq.
    + change (In (without p (Attributes hl l)) (map (without p) files)). now apply in_map.
Qed.

(** A dry run changes nothing and reports the same. *)
Theorem C38_dry_run p r : fst (remove_file true p r) = r /\ snd (remove_file true p r) = snd (remove_file false p r).
Proof.
  unfold remove_file, clean_metadata. cbn [fst snd]. split; [reflexivity|]. f_equal. f_equal. f_equal.
  induction (rr_meta r) as [|[k c] l IH]; [reflexivity|]. cbn [map existsb fst snd]. rewrite IH. f_equal.
  unfold remove_from_metadata. destruct (rm_loop _ _ _ _) as [[? ?] ?]. reflexivity.
Qed.

(** Only paths inside the repository are accepted, and whatever accepted path is removed, nothing of the data
    directory is deleted with the mirror files. *)
Theorem C38_data_directory_safe p :
  (may_remove p = true <-> p <> [] /\ ~ In (bs "rdiff-backup-data") p)
  /\ (may_remove p = true -> forall r x, In (bs "rdiff-backup-data" :: x) (rr_mirror r) ->
      In (bs "rdiff-backup-data" :: x) (rr_mirror (fst (remove_file false p r)))).
Proof.
  assert (A : may_remove p = true <-> p <> [] /\ ~ In (bs "rdiff-backup-data") p).
  { unfold may_remove. destruct p as [|c p]; [split; [discriminate|intros (H & _); now exfalso]|].
    rewrite negb_true_iff. split.
    - intros H. split; [discriminate|]. intros K. apply not_true_iff_false in H. apply H. apply existsb_exists.
      exists (bs "rdiff-backup-data"). split; [assumption|apply beq_bytes_refl].
    - intros (_ & H). apply not_true_iff_false. intros K. apply existsb_exists in K as (x & Hx & E).
      apply beq_bytes_true in E. subst x. contradiction. }
  split; [exact A|]. intros H r x Hx. apply A in H as (H1 & H2). unfold remove_file.
  destruct (clean_metadata false p (rr_meta r)) as [[meta any] alts]. cbn [fst rr_mirror].
  destruct (lstat p (rr_mirror r)); [|assumption]. unfold delete_tree. apply filter_In. split; [assumption|].
  apply negb_true_iff, not_true_iff_false. intros K. apply is_prefix_spec in K as (z & K).
  destruct p as [|c p]; [congruence|]. cbn [app] in K. injection K as K _. apply H2. left. now symmetry.
Qed.
Print Assumptions C38_data_directory_safe.


(** ** The conditions are needed *)
Definition ex_stat_lines (i : idx) : list written :=
  [mk_written i true (Some (mk_crorp i false true 10 true None)) None None].
(** the statistics of "a b" go with the file "a", those of "a" with the file "a 1" *)
Theorem C38_statistics_refuted :
  remove_from_metadata false FileStatistics [bs "a"] (text (header ++ map line_of (ex_stat_lines [bs "a b"]))) = (text header, true, [])
  /\ remove_from_metadata false FileStatistics [bs "a 1"] (text (header ++ map line_of (ex_stat_lines [bs "a"]))) = (text header, true, [])
  /\ at_or_below [bs "a"] [bs "a b"] = false /\ at_or_below [bs "a 1"] [bs "a"] = false.
Proof. vm_compute. auto. Qed.
(** the increments directory of another directory goes, with the increments of what is in it,
    if that directory is named like an increment of the path *)
Theorem C38_odd_directory_refuted :
  let odd := bs "a.2001-09-09T02:46:40+01:00.dir" in
  let inc := bs "f.2001-09-09T02:46:40+01:00.missing" in
  let r := mk_rrepo [] [[odd]; [odd; inc]] [[bs "a"]; [odd]] [] in
  at_or_below [bs "a"] [odd; bs "f"] = false /\ increment_of [odd; inc] [odd; bs "f"]
  /\ rr_incs (fst (remove_file false [bs "a"] r)) = [] /\ rr_mirror (fst (remove_file false [bs "a"] r)) = [[odd]].
Proof.
  cbv zeta. split; [reflexivity|]. split; [|split; vm_compute; reflexivity].
  exists [bs "a.2001-09-09T02:46:40+01:00.dir"], (bs "f.2001-09-09T02:46:40+01:00.missing"), (bs "f").
  split; [reflexivity|]. split; [reflexivity|]. do 4 eexists. vm_compute. reflexivity.
Qed.
(** removing a file named like an increment of another one takes that increment *)
Theorem C38_odd_name_refuted :
  let inc := bs "a.2001-09-09T02:46:40+01:00.snapshot" in
  increment_of [inc] [bs "a"] /\ at_or_below [inc] [bs "a"] = false
  /\ remove_file false [inc] (mk_rrepo [] [[inc]] [[bs "a"]] []) = (mk_rrepo [] [] [[bs "a"]] [], true).
Proof.
  cbv zeta. split; [|split; vm_compute; reflexivity].
  exists [], (bs "a.2001-09-09T02:46:40+01:00.snapshot"), (bs "a").
  split; [reflexivity|]. split; [reflexivity|]. do 4 eexists. vm_compute. reflexivity.
Qed.

(** ** The conditions can be met *)
Definition ex_area : list idx :=
  [[bs "a"]; [bs "a"; bs "f.2001-09-09T02:46:40+01:00.diff"]; [bs "a.2001-09-09T02:46:40+01:00.dir"];
   [bs "b.2001-09-09T02:46:40+01:00.missing"]].
Example C38_example : exists metas,
  [bs "a"] <> [] /\ good_path [bs "a"] /\ Forall (well_formed [bs "a"]) [Attributes true ex_files; Statistics (ex_stat_lines [bs "a"; bs "x y"]); Extended []]
  /\ stored_files [Attributes true ex_files; Statistics (ex_stat_lines [bs "a"; bs "x y"]); Extended []] = Some metas
  /\ tree_like ex_area /\ no_odd_directory ex_area /\ parse_increment_name (bs "a") = None
  /\ rr_incs (fst (remove_file false [bs "a"] (mk_rrepo metas ex_area [] []))) = [[bs "b.2001-09-09T02:46:40+01:00.missing"]].
Proof.
  eexists. split; [discriminate|]. split.
  { split; [discriminate|]. intros c [<-|[]]. split; [discriminate|]. intros [K|[]]. discriminate. }
  split.
  { apply Forall_cons; [|apply Forall_cons; [|apply Forall_cons; [constructor|constructor]]].
    - intros x Hx. pose proof ex_writable as H. rewrite Forall_forall in H. destruct (H x Hx) as [A B]. split; [exact A|].
      split; [exact B|]. intros s Hs. exfalso. clear -Hx Hs. cbn [ex_files In] in Hx.
      destruct Hx as [<-|[<-|[<-|[<-|[<-|[<-|[]]]]]]]; exact Hs.
    - split; [|split; [reflexivity|intros x [<-|[]]; left; reflexivity]].
      apply Forall_cons; [|constructor]. split; [|repeat split; cbn; try lia].
      split; [discriminate|]. intros c [<-|[<-|[]]]; (split; [discriminate|]); cbn; intuition discriminate. }
  split; [vm_compute; reflexivity|]. split; [|split; [|split; [reflexivity|vm_compute; reflexivity]]].
  - intros x d n Hx -> Hd. destruct d as [|d1 [|d2 [|d3 d]]]; [congruence| | |].
    + destruct Hx as [Hx|[Hx|[Hx|[Hx|[]]]]]; injection Hx as <- Hn; cbn; tauto.
    + destruct Hx as [Hx|[Hx|[Hx|[Hx|[]]]]]; try discriminate. injection Hx as <- <- Hn. cbn; tauto.
    + destruct Hx as [Hx|[Hx|[Hx|[Hx|[]]]]]; discriminate.
  - intros d n x Hd Hx Hp Hb. destruct Hd as [Hd|[Hd|[Hd|[Hd|[]]]]].
    + destruct d as [|d1 [|]]; try discriminate. injection Hd as <-. exfalso. apply Hp. reflexivity.
    + destruct d as [|d1 [|d2 [|]]]; try discriminate. injection Hd as <- <-.
      destruct Hx as [<-|[<-|[<-|[<-|[]]]]]; try discriminate. reflexivity.
    + destruct d as [|d1 [|]]; try discriminate. injection Hd as <-.
      destruct Hx as [<-|[<-|[<-|[<-|[]]]]]; try (vm_compute in Hb; discriminate). reflexivity.
    + destruct d as [|d1 [|]]; try discriminate. injection Hd as <-.
      destruct Hx as [<-|[<-|[<-|[<-|[]]]]]; try (vm_compute in Hb; discriminate). reflexivity.
Qed.

Print Assumptions C38_remove_file.
Print Assumptions C38_others_untouched.
Print Assumptions C38_dry_run.
Print Assumptions C38_statistics_refuted.
Print Assumptions C38_odd_directory_refuted.
Print Assumptions C38_odd_name_refuted.
