From Coq Require Import List ZArith Bool Ascii Lia.
From Verif Require Import Base L_Base M_Iter L_Iter M_Quoting L_Quoting M_Time M_IncName L_IncName M_Rorp M_Meta L_Meta S_Meta L_MetaAttr
  M_EaAcl S_EaAcl L_EaAcl M_RemoveFile.
Import List ListNotations.
Local Open Scope Z_scope.

(** ** lines *)
Lemma rlines_line l s : one_line l -> rlines (l ++ nl :: s) = (l ++ [nl]) :: rlines s.
Proof.
  intros H. induction l as [|c l IH]; cbn [app rlines].
  - now rewrite Ascii.eqb_refl.
  - assert (Hc : c <> nl) by (intros ->; apply H; now left).
    apply Ascii.eqb_neq in Hc. rewrite Hc, IH; [reflexivity|]. intros K. apply H. now right.
Qed.
Lemma rlines_text ls s : Forall one_line ls -> rlines (text ls ++ s) = map (fun l => l ++ [nl]) ls ++ rlines s.
Proof.
  induction 1 as [|l ls H HF IH]; [reflexivity|]. rewrite text_cons, <- app_assoc. cbn [app map].
  now rewrite rlines_line, IH.
Qed.
Lemma rlines_concat s : concat (rlines s) = s.
Proof.
  induction s as [|c s IH]; [reflexivity|]. cbn [rlines]. destruct (Ascii.eqb_spec c nl) as [->|_].
  - cbn. now rewrite IH.
  - destruct (rlines s) as [|l ls] eqn:E; [rewrite <- IH; reflexivity|]. cbn in *. now rewrite IH.
Qed.

Lemma starts_app_false m l t : starts_with m l = false -> (length m <= length l)%nat -> starts_with m (l ++ t) = false.
Proof.
  revert l; induction m as [|a m IH]; intros l H Hl; [destruct l; discriminate|].
  destruct l as [|b l]; [cbn in Hl; lia|]. cbn in *. destruct (Ascii.eqb a b); [|reflexivity].
  apply IH; [exact H|lia].
Qed.
(* a line which does not start with the marker does not do so with its newline either *)
Lemma starts_line m l : ~ In nl m -> starts_with m (l ++ [nl]) = starts_with m l.
Proof.
  intros Hm. revert l; induction m as [|a m IH]; intros l; [destruct l; reflexivity|].
  destruct l as [|b l]; cbn [app starts_with].
  - destruct (Ascii.eqb_spec a nl) as [->|]; [exfalso; apply Hm; now left|reflexivity].
  - destruct (Ascii.eqb a b); [|reflexivity]. apply IH. intros K. apply Hm. now right.
Qed.

(** ** quoting as a prefix code *)
Definition prefix_code (Q : bytes -> bytes) (code : ascii -> bytes) : Prop :=
  Q [] = [] /\ (forall c r, Q (c :: r) = code c ++ Q r)
  /\ (forall c d x y, code c ++ x = code d ++ y -> c = d /\ x = y)
  /\ code (chr 47) = [chr 47] /\ (forall c x y, code c ++ x <> nl :: y).

Lemma Q_app Q code a b : prefix_code Q code -> Q (a ++ b) = Q a ++ Q b.
Proof.
  intros (H0 & H1 & _). induction a as [|c a IH]; cbn [app]; [now rewrite H0|].
  now rewrite !H1, IH, app_assoc.
Qed.
Lemma Q_below Q code : prefix_code Q code -> forall p q x y,
  Q p ++ chr 47 :: x = Q q ++ nl :: y -> exists r, q = p ++ chr 47 :: r.
Proof.
  intros (H0 & H1 & H2 & H3 & H4). induction p as [|c p IH]; intros q x y E.
  - rewrite H0 in E. cbn [app] in E. destruct q as [|d q]; [rewrite H0 in E; discriminate|].
    rewrite H1, <- app_assoc in E.
    assert (K : code (chr 47) ++ x = code d ++ Q q ++ nl :: y) by (rewrite H3; exact E).
    apply H2 in K. destruct K as [<- _]. now exists q.
  - rewrite H1, <- app_assoc in E. destruct q as [|d q].
    + rewrite H0 in E. cbn [app] in E. destruct (H4 _ _ _ E).
    + rewrite H1, <- app_assoc in E. apply H2 in E. destruct E as [<- E].
      apply IH in E. destruct E as [r ->]. now exists r.
Qed.
Lemma Q_same Q code : prefix_code Q code -> forall p q, Q p = Q q -> p = q.
Proof.
  intros (H0 & H1 & H2 & H3 & H4). induction p as [|c p IH]; intros q E.
  - destruct q as [|d q]; [reflexivity|]. rewrite H0, H1 in E.
    exfalso. apply (H4 d (Q q ++ [nl]) []). rewrite app_assoc, <- E. reflexivity.
  - destruct q as [|d q].
    + rewrite H0, H1 in E. exfalso. apply (H4 c (Q p ++ [nl]) []). rewrite app_assoc, E. reflexivity.
    + rewrite !H1 in E. apply H2 in E. destruct E as [<- E]. f_equal. now apply IH.
Qed.

Definition qp_code (c : ascii) : bytes :=
  if Ascii.eqb c nl then [bslash; chr 110] else if Ascii.eqb c bslash then [bslash; bslash] else [c].
Lemma quote_path_code : prefix_code quote_path qp_code.
Proof.
  unfold prefix_code, qp_code. split; [reflexivity|]. split; [|split; [|split]].
  - intros c r. cbn [quote_path]. destruct (Ascii.eqb c nl); [reflexivity|].
    destruct (Ascii.eqb c bslash); reflexivity.
  - intros c d x y.
    destruct (Ascii.eqb_spec c nl) as [->|Hc]; [|destruct (Ascii.eqb_spec c bslash) as [->|Hc2]];
    (destruct (Ascii.eqb_spec d nl) as [->|Hd]; [|destruct (Ascii.eqb_spec d bslash) as [->|Hd2]]);
    cbn [app]; intros E; inversion E; subst; split; congruence.
  - reflexivity.
  - intros c x y. destruct (Ascii.eqb_spec c nl) as [->|Hc]; [discriminate|].
    destruct (Ascii.eqb_spec c bslash) as [->|Hc2]; [discriminate|]. cbn [app]. congruence.
Qed.

Definition acl_code (c : ascii) : bytes := if plain c then [c] else octal c.
Lemma plain_not_bslash : plain bslash = false.
Proof. reflexivity. Qed.
Lemma octal_inj c d x y : octal c ++ x = octal d ++ y -> c = d /\ x = y.
Proof.
  unfold octal. cbn [app]. cbv zeta. intros E.
  pose proof (f_equal (fun l => nth 1 l nl) E) as E1. pose proof (f_equal (fun l => nth 2 l nl) E) as E2.
  pose proof (f_equal (fun l => nth 3 l nl) E) as E3. pose proof (f_equal (skipn 4) E) as Ex.
  cbn [nth] in E1, E2, E3. cbn [skipn] in Ex. clear E. split; [|exact Ex].
  assert (B : forall n, (n < 8)%N -> ord (chr (48 + n)) = (48 + n)%N).
  { intros n Hn. rewrite ord_chr; [reflexivity|lia]. }
  pose proof (ord_lt c) as Hc. pose proof (ord_lt d) as Hd.
  assert (K1 : (ord c / 64 = ord d / 64)%N).
  { assert ((ord c / 64 < 8)%N) by (apply N.div_lt_upper_bound; lia).
    assert ((ord d / 64 < 8)%N) by (apply N.div_lt_upper_bound; lia).
    apply (f_equal ord) in E1. rewrite !B in E1 by assumption. lia. }
  assert (K2 : ((ord c / 8) mod 8 = (ord d / 8) mod 8)%N).
  { pose proof (N.mod_lt (ord c / 8) 8 ltac:(lia)). pose proof (N.mod_lt (ord d / 8) 8 ltac:(lia)).
    apply (f_equal ord) in E2. rewrite !B in E2 by assumption. lia. }
  assert (K3 : (ord c mod 8 = ord d mod 8)%N).
  { pose proof (N.mod_lt (ord c) 8 ltac:(lia)). pose proof (N.mod_lt (ord d) 8 ltac:(lia)).
    apply (f_equal ord) in E3. rewrite !B in E3 by assumption. lia. }
  apply ord_inj.
  assert (D : forall n, (n = (n / 64) * 64 + ((n / 8) mod 8) * 8 + n mod 8)%N).
  { intros n. change 64%N with (8 * 8)%N. rewrite <- N.div_div by lia.
    pose proof (N.div_mod n 8 ltac:(lia)). pose proof (N.div_mod (n / 8) 8 ltac:(lia)). lia. }
  rewrite (D (ord c)), (D (ord d)). congruence.
Qed.
Lemma acl_quote_code : prefix_code acl_quote acl_code.
Proof.
  unfold prefix_code, acl_code. split; [reflexivity|]. split; [reflexivity|]. split; [|split].
  - intros c d x y. destruct (plain c) eqn:Pc, (plain d) eqn:Pd.
    + cbn [app]. intros E. injection E as -> ->. easy.
    + unfold octal at 1. cbn [app]. intros E. injection E as -> _. rewrite plain_not_bslash in Pc. discriminate.
    + unfold octal at 1. cbn [app]. intros E. injection E as <- _. rewrite plain_not_bslash in Pd. discriminate.
    + apply octal_inj.
  - reflexivity.
  - intros c x y. destruct (plain c) eqn:Pc.
    + cbn [app]. intros E. injection E as -> _. discriminate.
    + unfold octal. cbn [app]. intros E. discriminate.
Qed.

(** ** paths *)
Lemma split_app2 sep a b : split_on sep (a ++ sep :: b) = split_on sep a ++ split_on sep b.
Proof.
  induction a as [|c a IH]; cbn [app split_on].
  - now rewrite Ascii.eqb_refl.
  - destruct (Ascii.eqb c sep); [now rewrite IH|]. rewrite IH.
    pose proof (split_on_nonempty sep a). destruct (split_on sep a); [congruence|]. reflexivity.
Qed.
Lemma split_path i : i <> [] -> good_path i -> split_on (chr 47) (index_path i) = i.
Proof.
  intros Hne [_ H]. unfold index_path. destruct i as [|c i]; [congruence|].
  change (bs "/") with [chr 47]. apply split_join; [discriminate|]. intros x Hx. now apply H.
Qed.
Lemma index_path_inj p q : p <> [] -> good_path p -> good_path q -> index_path p = index_path q -> p = q.
Proof.
  intros Hp Gp Gq E. pose proof (split_path p Hp Gp) as A. destruct q as [|d q].
  - rewrite E in A. exfalso. apply (proj1 Gp). rewrite <- A. reflexivity.
  - rewrite <- (split_path (d :: q)), <- E by easy. now symmetry.
Qed.
Lemma join_app2 p r : p <> [] -> r <> [] -> join_with [chr 47] (p ++ r) = join_with [chr 47] p ++ chr 47 :: join_with [chr 47] r.
Proof.
  intros Hp Hr. rewrite join_app by assumption. reflexivity.
Qed.
Lemma index_path_below p q r : p <> [] -> good_path p -> good_path q ->
  index_path q = index_path p ++ chr 47 :: r -> is_prefix p q = true.
Proof.
  intros Hp Gp Gq E. apply is_prefix_spec. destruct q as [|d q].
  - exfalso. assert (In (chr 47) (bs ".")) as K.
    { change (bs ".") with (index_path []). rewrite E. apply in_or_app. right. now left. }
    destruct K as [K|[]]. discriminate.
  - exists (split_on (chr 47) r). rewrite <- (split_path (d :: q)) by easy.
    rewrite E, split_app2, split_path by easy. reflexivity.
Qed.
Lemma index_path_inside p q : p <> [] -> is_prefix p q = true ->
  q = p \/ exists r, index_path q = index_path p ++ chr 47 :: r.
Proof.
  intros Hp H. apply is_prefix_spec in H. destruct H as [r ->].
  destruct r as [|c r]; [left; apply app_nil_r|right].
  exists (join_with [chr 47] (c :: r)).
  unfold index_path. destruct p as [|a p]; [congruence|]. cbn [app].
  change (bs "/") with [chr 47]. exact (join_app2 (a :: p) (c :: r) ltac:(discriminate) ltac:(discriminate)).
Qed.

(** ** the match with header lines *)
Lemma matches_header k code p q : k <> FileStatistics -> prefix_code (quote_fn k) code ->
  p <> [] -> good_path p -> good_path q ->
  matches k (quote_fn k (index_path p)) ((marker k ++ quote_fn k (index_path q)) ++ [nl]) = is_prefix p q.
Proof.
  intros Hk HC Hp Gp Gq.
  assert (E : matches k (quote_fn k (index_path p)) ((marker k ++ quote_fn k (index_path q)) ++ [nl]) =
    beq_bytes (marker k ++ quote_fn k (index_path q) ++ [nl]) (marker k ++ quote_fn k (index_path p) ++ [nl])
    || starts_with (marker k ++ quote_fn k (index_path p) ++ [chr 47]) (marker k ++ quote_fn k (index_path q) ++ [nl])).
  { rewrite <- app_assoc. destruct k; try reflexivity. congruence. }
  rewrite E. clear E. destruct (is_prefix p q) eqn:E.
  - apply orb_true_iff. destruct (index_path_inside p q Hp E) as [->|[r Er]].
    + left. apply beq_bytes_refl.
    + right. apply starts_with_spec. rewrite Er. rewrite (Q_app (quote_fn k) code) by assumption.
      destruct HC as (H0 & H1 & H2 & H3 & H4). rewrite H1, H3. exists (quote_fn k r ++ [nl]).
      rewrite <- !app_assoc. reflexivity.
  - apply orb_false_iff. split.
    + apply beq_bytes_false. intros K. apply app_inv_head, app_inv_tail in K.
      apply (Q_same _ code HC) in K. symmetry in K. apply index_path_inj in K; try assumption. subst q.
      assert (is_prefix p p = true) by (apply is_prefix_spec; exists []; now rewrite app_nil_r). congruence.
    + destruct (starts_with _ _) eqn:K; [|reflexivity]. apply starts_with_spec in K. destruct K as [t K].
      rewrite <- !app_assoc in K. apply app_inv_head in K. symmetry in K. cbn [app] in K.
      apply (Q_below _ code HC) in K. destruct K as [r K].
      apply index_path_below in K; try assumption. congruence.
Qed.

(** ** one file *)
(** records written as a header with the quoted path and other lines *)
Definition shaped {X} (k : mkind) (wr : X -> bytes) (ix : X -> idx) (x : X) : Prop :=
  good_path (ix x) /\ exists body,
    wr x = rec_text (marker k ++ quote_fn k (index_path (ix x)), body)
    /\ one_line (marker k ++ quote_fn k (index_path (ix x)))
    /\ Forall (fun l => one_line l /\ starts_with (marker k) l = false) body.

Definition alts_in (k : mkind) (body : list bytes) : list bytes :=
  flat_map (fun l => if is_alt l then [alt_of k l] else []) (map (fun l => l ++ [nl]) body).
(* the alternate names in the records about [p] *)
Definition alts_of {X} (k : mkind) (wr : X -> bytes) (x : X) : list bytes :=
  flat_map (fun l => if is_alt l then [alt_of k l] else []) (tl (rlines (wr x))).

Lemma marker_no_nl k : ~ In nl (marker k).
Proof. destruct k; cbn; intuition discriminate. Qed.

Lemma rm_body_skip k q body rest : Forall (fun l => one_line l /\ starts_with (marker k) l = false) body ->
  rm_loop k q true (map (fun l => l ++ [nl]) body ++ rest) =
  let '(kept, any, alts) := rm_loop k q true rest in (kept, any, alts_in k body ++ alts).
Proof.
  induction 1 as [|l body [H1 H2] HF IH]; cbn [map app].
  - destruct (rm_loop k q true rest) as [[kept any] alts]. reflexivity.
  - cbn [rm_loop]. rewrite starts_line by apply marker_no_nl. rewrite H2. cbn [negb andb]. rewrite IH.
    destruct (rm_loop k q true rest) as [[kept any] alts]. unfold alts_in. cbn [map flat_map].
    destruct (is_alt (l ++ [nl])); reflexivity.
Qed.
Lemma rm_body_keep k q body rest : Forall (fun l => one_line l /\ starts_with (marker k) l = false) body ->
  rm_loop k q false (map (fun l => l ++ [nl]) body ++ rest) =
  let '(kept, any, alts) := rm_loop k q false rest in (map (fun l => l ++ [nl]) body ++ kept, any, alts).
Proof.
  induction 1 as [|l body [H1 H2] HF IH]; cbn [map app].
  - destruct (rm_loop k q false rest) as [[kept any] alts]. reflexivity.
  - cbn [rm_loop]. rewrite starts_line by apply marker_no_nl. rewrite H2. cbn [negb andb]. rewrite IH.
    destruct (rm_loop k q false rest) as [[kept any] alts]. reflexivity.
Qed.

Lemma rlines_rec h body s : one_line h -> Forall one_line body ->
  rlines (rec_text (h, body) ++ s) = (h ++ [nl]) :: map (fun l => l ++ [nl]) body ++ rlines s.
Proof.
  intros H HF. unfold rec_text, rec_lines. cbn [fst snd]. rewrite text_cons.
  rewrite <- app_assoc. cbn [app]. rewrite rlines_line by assumption. now rewrite rlines_text.
Qed.
Lemma concat_lines (ls : list bytes) : concat (map (fun l => l ++ [nl]) ls) = text ls.
Proof. reflexivity. Qed.

Lemma rm_records {X} k code (wr : X -> bytes) (ix : X -> idx) p :
  k <> FileStatistics -> prefix_code (quote_fn k) code -> p <> [] -> good_path p ->
  forall l, Forall (shaped k wr ix) l -> forall skipping,
  let '(kept, any, alts) := rm_loop k (quote_fn k (index_path p)) skipping (rlines (concat (map wr l))) in
  concat kept = concat (map wr (filter (fun x => negb (is_prefix p (ix x))) l))
  /\ any = existsb (fun x => is_prefix p (ix x)) l
  /\ alts = flat_map (alts_of k wr) (filter (fun x => is_prefix p (ix x)) l).
Proof.
  intros Hk HC Hp Gp. induction 1 as [|x l (Gx & body & Ew & Hh & HB) HF IH]; intros skipping.
  { cbn. easy. }
  cbn [map concat].
  assert (HO : Forall one_line body) by (eapply Forall_impl; [|exact HB]; now intros ? []).
  assert (Ea : alts_of k wr x = alts_in k body).
  { unfold alts_of, alts_in. rewrite Ew. rewrite <- (app_nil_r (rec_text _)), rlines_rec by assumption.
    cbn [tl rlines]. now rewrite app_nil_r. }
  set (h := marker k ++ quote_fn k (index_path (ix x))) in *.
  assert (EL : rlines (wr x ++ concat (map wr l)) = (h ++ [nl]) :: map (fun l => l ++ [nl]) body ++ rlines (concat (map wr l))).
  { rewrite Ew. now apply rlines_rec. }
  rewrite EL. clear EL.
  assert (Hm : starts_with (marker k) (h ++ [nl]) = true).
  { apply starts_with_spec. exists (quote_fn k (index_path (ix x)) ++ [nl]). unfold h. now rewrite <- app_assoc. }
  cbn [rm_loop]. rewrite Hm. rewrite andb_false_r. cbn [andb].
  unfold h at 1. rewrite (matches_header k code) by assumption. cbn [filter existsb].
  destruct (is_prefix p (ix x)) eqn:E; cbn [negb].
  - rewrite rm_body_skip by exact HB. specialize (IH true).
    destruct (rm_loop k (quote_fn k (index_path p)) true (rlines (concat (map wr l)))) as [[kept any] alts].
    destruct IH as (H1 & H2 & H3). cbn [flat_map]. rewrite Ea, H3. repeat split; assumption.
  - rewrite rm_body_keep by exact HB. specialize (IH false).
    destruct (rm_loop k (quote_fn k (index_path p)) false (rlines (concat (map wr l)))) as [[kept any] alts].
    destruct IH as (H1 & H2 & H3). cbn [concat map]. rewrite concat_app, H1, Ew. split; [|split; assumption].
    change (concat (map (fun l0 => l0 ++ [nl]) body)) with (text body).
    unfold rec_text, rec_lines. cbn [fst snd]. rewrite text_cons. rewrite <- !app_assoc. reflexivity.
Qed.

Lemma existsb_filter {X} (f : X -> bool) l : existsb f l = false -> filter (fun x => negb (f x)) l = l.
Proof.
  induction l as [|x l IH]; [reflexivity|]. cbn. intros H. apply orb_false_iff in H. destruct H as [-> H].
  cbn. now rewrite IH.
Qed.
Lemma remove_records {X} k code (wr : X -> bytes) (ix : X -> idx) p l :
  k <> FileStatistics -> prefix_code (quote_fn k) code -> p <> [] -> good_path p ->
  Forall (shaped k wr ix) l ->
  remove_from_metadata false k p (concat (map wr l)) =
  (concat (map wr (filter (fun x => negb (is_prefix p (ix x))) l)),
   existsb (fun x => is_prefix p (ix x)) l,
   flat_map (alts_of k wr) (filter (fun x => is_prefix p (ix x)) l)).
Proof.
  intros Hk HC Hp Gp HF. unfold remove_from_metadata.
  pose proof (rm_records k code wr ix p Hk HC Hp Gp l HF false) as R.
  destruct (rm_loop _ _ _ _) as [[kept any] alts]. destruct R as (-> & -> & ->). cbn [orb].
  destruct (existsb _ l) eqn:E; [reflexivity|]. cbn [negb]. now rewrite existsb_filter.
Qed.

(** ** the kinds of records *)
Definition some_or_nil (o : option bytes) : bytes := match o with Some r => r | None => [] end.

Lemma fline_not_file fv : starts_with (bs "File ") (fline fv) = false.
Proof. reflexivity. Qed.
Lemma attr_shaped hl x : good_path (r_index x) -> described (r_data x) \/ nothing (r_data x) ->
  attr_record hl x <> None /\ shaped MirrorMetadata (fun x => some_or_nil (attr_record hl x)) r_index x.
Proof.
  intros G D. destruct (body_emits hl (r_data x) D) as (up & (fs & E & Hok & _) & _).
  rewrite attr_record_body, E. cbn [cat2]. split; [discriminate|]. split; [exact G|].
  exists (map fline fs). rewrite attr_record_body, E. cbn [cat2 some_or_nil]. split; [|split].
  - unfold rec_text, rec_lines. cbn [fst snd marker quote_fn]. rewrite text_cons. rewrite <- !app_assoc. reflexivity.
  - intros H. apply in_app_or in H. destruct H as [H|H]; [cbn in H; intuition discriminate|].
    revert H. apply quote_path_no_nl.
  - apply Forall_map. eapply Forall_impl; [|exact Hok]. intros fv Hf. split; [now apply fline_one|reflexivity].
Qed.
Lemma ea_shaped e : plain_eas e -> shaped ExtendedAttributes ea_record ea_index e.
Proof.
  intros (Hp & HN & H). destruct (file_hdr_ok _ Hp) as (H1 & H2 & H3). split; [exact Hp|].
  exists (map ea_line (ea_dict e)). split; [apply join_nl_text|]. split; [exact H2|].
  apply Forall_map, Forall_forall. intros nv Hi. destruct (H (fst nv)) as [A B]; [now apply in_map|].
  pose proof (ea_line_visible nv A B). split; [now apply visible_one_line|now apply visible_not_hdr].
Qed.
Lemma one_line_split a b x y : one_line a -> one_line b -> a ++ nl :: x = b ++ nl :: y -> a = b /\ x = y.
Proof.
  revert b; induction a as [|c a IH]; intros b Ha Hb E; destruct b as [|d b]; cbn [app] in E.
  - injection E as E. easy.
  - injection E as E1 E2. exfalso. apply Hb. now left.
  - injection E as E1 E2. exfalso. apply Ha. now left.
  - injection E as E1 E2. subst d. destruct (IH b) as [-> ->]; try easy.
    + intros K. apply Ha. now right.
    + intros K. apply Hb. now right.
Qed.
Lemma acl_shaped a : acl_ok a -> a_list a <> [] ->
  acl_record a <> None /\ shaped AccessControlLists acl_wr a_index a.
Proof.
  intros Ha Hne. destruct (acl_codes a Ha Hne) as (HN & [h body] & E & (R1 & R2 & R3) & R4 & _).
  split; [exact HN|]. assert (Hp : good_path (a_index a)) by apply Ha. split; [exact Hp|].
  destruct (file_hdr_ok _ Hp) as (_ & H2 & _). cbn [fst snd] in *.
  assert (K : exists s, acl_wr a = (FILE_HDR ++ acl_quote (index_path (a_index a))) ++ nl :: s).
  { unfold acl_wr, acl_record in *. destruct (acl_str a) as [s|]; [|congruence].
    exists (s ++ [nl]). rewrite <- app_assoc. reflexivity. }
  destruct K as [s K]. rewrite K in E. unfold rec_text, rec_lines in E. cbn [fst snd] in E. rewrite text_cons in E.
  apply one_line_split in E; [|exact H2|exact R2]. destruct E as [E1 E2]. subst h s.
  exists body. split; [|split; [exact H2|exact R3]].
  rewrite K. unfold rec_text, rec_lines. cbn [fst snd]. now rewrite text_cons.
Qed.

(** ** alternate names in a record *)
Definition silent (o : option bytes) : Prop :=
  exists ls, o = Some (text ls) /\ Forall (fun l => one_line l /\ is_alt (l ++ [nl]) = false) ls.
Lemma silent_nil : silent (Some []).
Proof. exists []. now split. Qed.
Lemma silent_cat a b : silent a -> silent b -> silent (cat2 a b).
Proof.
  intros (x & -> & H1) (y & -> & H2). exists (x ++ y). rewrite text_app. split; [reflexivity|now apply Forall_app].
Qed.
Definition quiet (f : bytes) : Prop := ~ In nl f /\ forall v, is_alt (bs "  " ++ f ++ bs " " ++ v) = false.
Lemma silent_line f v : quiet f -> ~ In nl v -> silent (Some (line f v)).
Proof.
  intros [Hf Hq] Hv. exists [bs "  " ++ f ++ bs " " ++ v]. split.
  - unfold line, text. cbn [map concat]. rewrite app_nil_r. rewrite <- !app_assoc. reflexivity.
  - constructor; [|constructor]. split.
    + unfold one_line. rewrite !in_app_iff. cbn. intuition discriminate.
    + rewrite <- !app_assoc. apply Hq.
Qed.
Ltac quiet := split; [cbn; intuition discriminate|intros; reflexivity].
Lemma silent_int f o z : quiet f -> o = Some (VInt z) -> silent (int_line f o).
Proof. intros Hf ->. apply silent_line; [exact Hf|]. apply dec_Z_no; [reflexivity|discriminate]. Qed.
Lemma silent_name f o : quiet f -> absent_or (fun v => v = VNone \/ a_name v) o -> silent (name_line f o).
Proof.
  intros Hf H. assert (C : silent (Some (line f (bs ":")))).
  { apply silent_line; [exact Hf|]. cbn. intuition discriminate. }
  destruct o as [v|]; [|exact C]. cbn in H. destruct H as [->|H]; [exact C|].
  destruct v as [| |[|c s]|]; try contradiction; cbn [name_line]; [exact C|].
  apply silent_line; [exact Hf|]. apply H.
Qed.

(* the name of the file in the directory of long names *)
Definition alt_name (d : dict) : list bytes :=
  match d KMirrorname, d KIncname with
  | Some (VStr s), _ => [s]
  | None, Some (VStr s) => [s]
  | _, _ => []
  end.
Definition alt_plain (s : bytes) : Prop := ~ In (chr 32) s /\ ~ In bslash s.

Lemma drop_nl_no s : ~ In nl s -> drop_nl s = s.
Proof.
  destruct s as [|c s]; [reflexivity|]. intros H. cbn [drop_nl]. destruct (Ascii.eqb_spec c nl) as [->|]; [|reflexivity].
  exfalso. apply H. now left.
Qed.
Lemma strip_nl_line l : one_line l -> strip_nl (l ++ [nl]) = l.
Proof.
  intros H. unfold strip_nl. assert (E : drop_nl (l ++ [nl]) = match l with [] => [] | _ => l ++ [nl] end).
  { destruct l as [|c l]; [reflexivity|]. cbn [app drop_nl]. destruct (Ascii.eqb_spec c nl) as [->|]; [exfalso; apply H; now left|reflexivity]. }
  rewrite E. destruct l as [|c l]; [reflexivity|]. rewrite rev_app_distr. cbn [rev app]. cbn [drop_nl].
  rewrite Ascii.eqb_refl. rewrite drop_nl_no; [now rewrite <- (rev_involutive (c :: l))|].
  intros K. apply H. apply in_rev. exact K.
Qed.
Lemma unquote_path_id s : ~ In bslash s -> unquote_path s = s.
Proof.
  induction s as [|c s IH]; [reflexivity|]. intros H. cbn [unquote_path].
  destruct (Ascii.eqb_spec c bslash) as [->|]; [exfalso; apply H; now left|]. f_equal. apply IH. intros K. apply H. now right.
Qed.
Lemma alt_of_line f s : (f = bs "AlternateMirrorName" \/ f = bs "AlternateIncrementName") -> word s -> alt_plain s ->
  let l := bs "  " ++ f ++ bs " " ++ s in
  one_line l /\ is_alt (l ++ [nl]) = true /\ alt_of MirrorMetadata (l ++ [nl]) = s.
Proof.
  intros Hf [Hs1 Hs2] [Hp1 Hp2] l.
  assert (HO : one_line l).
  { unfold one_line, l. rewrite !in_app_iff. intros [K|[K|[K|K]]]; try (destruct Hf as [->| ->]; cbn in K; intuition discriminate); now apply Hs2. }
  split; [exact HO|]. split.
  - unfold l. destruct Hf as [-> | ->]; reflexivity.
  - unfold alt_of. rewrite strip_nl_line by exact HO.
    assert (E : last (split_on (chr 32) l) [] = s).
    { unfold l. destruct Hf as [-> | ->].
      - change (bs "  " ++ bs "AlternateMirrorName" ++ bs " " ++ s) with ([] ++ chr 32 :: [] ++ chr 32 :: bs "AlternateMirrorName" ++ chr 32 :: s).
        rewrite !split_on_app by (cbn; intuition discriminate). rewrite split_on_nosep by assumption. reflexivity.
      - change (bs "  " ++ bs "AlternateIncrementName" ++ bs " " ++ s) with ([] ++ chr 32 :: [] ++ chr 32 :: bs "AlternateIncrementName" ++ chr 32 :: s).
        rewrite !split_on_app by (cbn; intuition discriminate). rewrite split_on_nosep by assumption. reflexivity. }
    cbn [unquote_fn]. unfold bytes in *. rewrite E. now apply unquote_path_id.
Qed.

Definition emits_alts (o : option bytes) (a : list bytes) : Prop :=
  exists ls, o = Some (text ls) /\ Forall one_line ls
    /\ flat_map (fun l => if is_alt l then [alt_of MirrorMetadata l] else []) (map (fun l => l ++ [nl]) ls) = a.
Lemma silent_alts o : silent o -> emits_alts o [].
Proof.
  intros (ls & -> & H). exists ls. split; [reflexivity|]. split.
  - eapply Forall_impl; [|exact H]. now intros ? [].
  - induction H as [|l ls [_ E] _ IH]; [reflexivity|]. cbn [map flat_map]. now rewrite E.
Qed.
Lemma alts_cat a b x y : emits_alts a x -> emits_alts b y -> emits_alts (cat2 a b) (x ++ y).
Proof.
  intros (l1 & -> & H1 & E1) (l2 & -> & H2 & E2). exists (l1 ++ l2). rewrite text_app. split; [reflexivity|].
  split; [now apply Forall_app|]. rewrite map_app, flat_map_app. apply f_equal2; assumption.
Qed.
Lemma cat_silent a b y : silent a -> emits_alts b y -> emits_alts (cat2 a b) y.
Proof. intros Ha Hb. change y with ([] ++ y). apply alts_cat; [now apply silent_alts|exact Hb]. Qed.

Definition good_alts (d : dict) : Prop := forall s, In s (alt_name d) -> alt_plain s.
Lemma alts_common m d : described d -> (m = true -> an_int (d KMtime)) -> good_alts d ->
  emits_alts (common_lines m d) (alt_name d).
Proof.
  intros D Hm HA. destruct (de_owner d D) as [[u Hu] [g Hg]]. unfold common_lines.
  apply cat_silent.
  { destruct m; [|apply silent_nil]. destruct (Hm eq_refl) as [z Hz]. eapply silent_int; [quiet|exact Hz]. }
  apply cat_silent; [eapply silent_int; [quiet|exact Hu]|].
  apply cat_silent; [apply silent_name; [quiet|apply (de_names d D); now left]|].
  apply cat_silent; [eapply silent_int; [quiet|exact Hg]|].
  apply cat_silent; [apply silent_name; [quiet|apply (de_names d D); now right]|].
  apply cat_silent.
  { pose proof (de_perms d D) as P. destruct (d KPerms) as [v|]; [|eapply silent_int; [quiet|reflexivity]].
    cbn in P. destruct P as [z P]. injection P as ->. eapply silent_int; [quiet|reflexivity]. }
  pose proof (de_alt d D KMirrorname (or_introl eq_refl)) as M. pose proof (de_alt d D KIncname (or_intror eq_refl)) as I.
  assert (K : forall f s, (f = bs "AlternateMirrorName" \/ f = bs "AlternateIncrementName") -> word s -> alt_plain s ->
     emits_alts (Some (line f s)) [s]).
  { intros f s Hf Hw Hp. destruct (alt_of_line f s Hf Hw Hp) as (A & B & C).
    exists [bs "  " ++ f ++ bs " " ++ s]. split.
    - unfold line, text. cbn [map concat]. rewrite app_nil_r. rewrite <- !app_assoc. reflexivity.
    - split; [now constructor|]. cbn [map flat_map]. unfold bytes in *. rewrite B, C. reflexivity. }
  unfold good_alts, alt_name in *. destruct (d KMirrorname) as [v|].
  - cbn in M. destruct M as (s & -> & Hw). cbn [str_line]. apply K; [now left|exact Hw|]. apply HA. now left.
  - destruct (d KIncname) as [v|]; [|apply silent_alts, silent_nil].
    cbn in I. destruct I as (s & -> & Hw). cbn [str_line]. apply K; [now right|exact Hw|]. apply HA. now left.
Qed.
Lemma silent_reg hl d : described d -> typed d (bs "reg") -> silent (reg_lines hl d).
Proof.
  intros D T. destruct (de_reg d D T) as ([s Hs] & Hsha & Hn & Hi). unfold reg_lines.
  apply silent_cat; [eapply silent_int; [quiet|exact Hs]|]. apply silent_cat.
  - destruct hl; [|apply silent_nil]. unfold getnumlinks.
    destruct (d KNlink) as [v|] eqn:En.
    + cbn in Hn. destruct Hn as [z Hz]. injection Hz as ->. destruct (1 <? z) eqn:E1; [|apply silent_nil].
      destruct (Hi z eq_refl ltac:(lia)) as [[a Ha] [b Hb]].
      apply silent_cat; [apply silent_line; [quiet|apply dec_Z_no; [reflexivity|discriminate]]|].
      apply silent_cat; eapply silent_int; [quiet|exact Ha|quiet|exact Hb].
    + cbn. apply silent_nil.
  - destruct (d KSha1) as [v|]; [|apply silent_nil]. cbn in Hsha. destruct v as [| |x|]; try contradiction.
    cbn [str_line]. apply silent_line; [quiet|apply Hsha].
Qed.

Lemma body_alts hl d : described d \/ nothing d -> (described d -> good_alts d) ->
  emits_alts (body_of hl d) (match d KType with Some VNone => [] | _ => alt_name d end).
Proof.
  intros [D|N] HA.
  2:{ unfold nothing in N. unfold body_of. rewrite N. apply silent_alts, silent_line; [quiet|cbn; intuition discriminate]. }
  specialize (HA D). destruct (de_type d D) as (t & T & Ht). unfold typed in T. unfold body_of. rewrite T.
  apply cat_silent.
  { apply silent_line; [quiet|]. cbn in Ht. repeat (destruct Ht as [<-|Ht]; [cbn; intuition discriminate|]). contradiction. }
  cbn in Ht. destruct Ht as [<-|[<-|[<-|[<-|[<-|[<-|[]]]]]]].
  - cbn [beq_bytes]. change (beq_bytes (bs "reg") (bs "reg")) with true. cbn iota.
    apply cat_silent; [now apply silent_reg|]. apply alts_common; [exact D| |exact HA].
    intros _. apply (de_mtime _ D); unfold typed; rewrite T; discriminate.
  - apply alts_common; [exact D| |exact HA]. intros _. apply (de_mtime _ D); unfold typed; rewrite T; discriminate.
  - apply alts_common; [exact D| |exact HA]. intros _. apply (de_mtime _ D); unfold typed; rewrite T; discriminate.
  - apply alts_common; [exact D| |exact HA]. intros _. apply (de_mtime _ D); unfold typed; rewrite T; discriminate.
  - destruct (de_sym d D T) as (l & Hl & Hne).
    change (beq_bytes (bs "sym") (bs "reg")) with false. change (beq_bytes (bs "sym") (bs "None")) with false.
    change (beq_bytes (bs "sym") (bs "sym")) with true. cbn iota. rewrite Hl. apply cat_silent; [|apply alts_common; [exact D|discriminate|exact HA]].
    apply silent_line; [quiet|]. apply quote_path_no_nl.
  - destruct (de_dev d D T) as (c & a & b & Hl & Hw & Hsp).
    change (beq_bytes (bs "dev") (bs "reg")) with false. change (beq_bytes (bs "dev") (bs "None")) with false.
    change (beq_bytes (bs "dev") (bs "sym")) with false. change (beq_bytes (bs "dev") (bs "dev")) with true. cbn iota. rewrite Hl.
    apply cat_silent; [|apply alts_common; [exact D|discriminate|exact HA]].
    apply silent_line; [quiet|].
    rewrite in_app_iff. intros [K|K]; [now apply Hw|]. cbn in K. destruct K as [K|K]; [discriminate|].
    rewrite in_app_iff in K. destruct K as [K|K]; [revert K; apply dec_Z_no; (reflexivity||discriminate)|].
    cbn in K. destruct K as [K|K]; [discriminate|]. revert K; apply dec_Z_no; (reflexivity||discriminate).
Qed.
Lemma attr_alts hl x : good_path (r_index x) -> described (r_data x) \/ nothing (r_data x) -> (described (r_data x) -> good_alts (r_data x)) ->
  alts_of MirrorMetadata (fun x => some_or_nil (attr_record hl x)) x =
  match r_data x KType with Some VNone => [] | _ => alt_name (r_data x) end.
Proof.
  intros G D HA. destruct (body_alts hl (r_data x) D HA) as (ls & E & HO & <-).
  unfold alts_of. rewrite attr_record_body, E. cbn [cat2 some_or_nil].
  rewrite <- !app_assoc. cbn [app].
  rewrite (app_assoc (bs "File ") (quote_path (index_path (r_index x)))).
  rewrite rlines_line.
  - cbn [tl]. rewrite <- (app_nil_r (text ls)), rlines_text by exact HO. cbn [rlines]. now rewrite app_nil_r.
  - intros H. apply in_app_or in H. destruct H as [H|H]; [cbn in H; intuition discriminate|].
    revert H. apply quote_path_no_nl.
Qed.

(** ** the other files *)
Lemma delete_tree_in q a x : In x (delete_tree q a) <-> In x a /\ is_prefix q x = false.
Proof. unfold delete_tree. rewrite filter_In, negb_true_iff. reflexivity. Qed.
Lemma delete_all_in l : forall a x, In x (delete_all l a) <-> In x a /\ forall q, In q l -> is_prefix q x = false.
Proof.
  unfold delete_all. induction l as [|q l IH]; intros a x; cbn [fold_left].
  - split; [intros H; split; [exact H|intros q []]|now intros []].
  - rewrite IH, delete_tree_in. split.
    + intros [[H1 H2] H3]. split; [exact H1|]. intros q' [<-|H]; [exact H2|now apply H3].
    + intros [H1 H2]. split; [split; [exact H1|apply H2; now left]|]. intros q' H. apply H2. now right.
Qed.
Lemma names_in_in d a n : In n (names_in d a) <-> In (d ++ [n]) a.
Proof.
  unfold names_in. rewrite in_flat_map. split.
  - intros (x & Hx & H). destruct (rev x) as [|m d'] eqn:E; [destruct H|].
    destruct (idx_eqb (rev d') d) eqn:E2; [|destruct H]. destruct H as [<-|[]].
    apply idx_eqb_eq in E2. subst d. rewrite <- (rev_involutive x), E in Hx. exact Hx.
  - intros H. exists (d ++ [n]). split; [exact H|]. rewrite rev_app_distr. cbn [rev app].
    rewrite rev_involutive. assert (E : idx_eqb d d = true) by now apply idx_eqb_eq.
    rewrite E. now left.
Qed.
Lemma lstat_in q a : lstat q a = true <-> In q a.
Proof.
  unfold lstat. rewrite existsb_exists. split.
  - intros (x & Hx & E). apply idx_eqb_eq in E. now subst.
  - intros H. exists q. split; [exact H|now apply idx_eqb_eq].
Qed.
Lemma starts_join (a b : list bytes) : starts_with (join_with [dot] a) (join_with [dot] (a ++ b)) = true.
Proof.
  destruct a as [|x a]; [destruct (join_with [dot] b); reflexivity|]. destruct b as [|y b].
  - rewrite app_nil_r. apply starts_with_spec. exists []. now rewrite app_nil_r.
  - rewrite join_app by discriminate. apply starts_with_spec. now eexists.
Qed.
Lemma parse_increment_starts n c ts t ty b :
  parse_increment_name n = Some (c, ts, t, ty, b) -> starts_with b n = true.
Proof.
  intros H. unfold parse_increment_name in H. cbv zeta in H.
  pose proof (join_split dot n) as J.
  rewrite <- (rev_involutive (split_on dot n)) in J.
  destruct (rev (split_on dot n)) as [|g r] eqn:E; [discriminate|].
  destruct (beq_bytes g (bs "gz")).
  - destruct (_ <? 4)%nat; [discriminate|]. destruct r as [|ext [|tsr rbase]]; try discriminate.
    destruct (existsb (beq_bytes ext) inc_types); [|discriminate]. destruct (bytestotime tsr); [|discriminate].
    injection H as <- <- <- <- <-. rewrite <- J. cbn [rev]. rewrite <- !app_assoc. apply starts_join.
  - destruct (_ <? 3)%nat; [discriminate|]. destruct r as [|tsr rbase]; try discriminate.
    destruct (existsb (beq_bytes g) inc_types); [|discriminate]. destruct (bytestotime tsr); [|discriminate].
    injection H as <- <- <- <- <-. rewrite <- J. cbn [rev]. rewrite <- !app_assoc. apply starts_join.
Qed.
Lemma incfiles_in q a x : In x (incfiles_of q a) <->
  In x a /\ exists n, x = removelast q ++ [n] /\ exists c ts t ty, parse_increment_name n = Some (c, ts, t, ty, last q []).
Proof.
  unfold incfiles_of. rewrite in_map_iff. split.
  - intros ([n t] & <- & H). cbn [fst]. apply incfiles_list_in in H. destruct H as (H1 & _ & (c & ts & ty & H2) & _).
    apply names_in_in in H1. split; [exact H1|]. exists n. split; [reflexivity|]. now exists c, ts, t, ty.
  - intros (H & n & -> & c & ts & t & ty & E). exists (n, t). split; [reflexivity|].
    apply incfiles_list_in. split; [now apply names_in_in|]. split.
    + now apply (parse_increment_starts n c ts t ty (last q [])).
    + split; [now exists c, ts, ty|easy].
Qed.
Lemma remove_with_incs_in q a x : In x (remove_with_incs q a) <->
  In x a /\ (lstat q a = true -> is_prefix q x = false) /\ forall y, In y (incfiles_of q a) -> is_prefix y x = false.
Proof.
  unfold remove_with_incs. destruct (lstat q a).
  - rewrite delete_tree_in, delete_all_in. intuition.
  - rewrite delete_all_in. intuition. discriminate.
Qed.

(** EA and ACL records have no alternate names *)
Lemma no_alt_line c r : is_space c = false -> is_alt ((c :: r) ++ [nl]) = false.
Proof.
  intros H. unfold is_alt. cbn [app bs starts_with].
  destruct (Ascii.eqb_spec (chr 32) c) as [<-|N]; [discriminate|].
  apply Ascii.eqb_neq in N. apply orb_false_iff.
  assert (G : forall w t, starts_with (chr 32 :: w) (c :: t) = false).
  { intros w t. cbn [starts_with]. now rewrite N. }
  split; apply (G _ (r ++ [nl])).
Qed.
Lemma no_alts {X} k (wr : X -> bytes) x h body : wr x = rec_text (h, body) -> one_line h -> Forall one_line body ->
  Forall (fun l => is_alt (l ++ [nl]) = false) body -> alts_of k wr x = [].
Proof.
  intros E Hh HO HN. unfold alts_of. rewrite E, <- (app_nil_r (rec_text _)), rlines_rec by assumption.
  cbn [tl rlines]. rewrite app_nil_r. clear -HN. induction HN as [|l body H _ IH]; [reflexivity|].
  cbn [map flat_map]. now rewrite H.
Qed.
Lemma visible_no_alt l : forallb visible l = true -> l <> [] -> is_alt (l ++ [nl]) = false.
Proof.
  intros H Hne. destruct l as [|c r]; [congruence|]. apply no_alt_line. cbn in H.
  apply andb_prop in H. now apply visible_not_space.
Qed.
Lemma ea_line_ne nv : fst nv <> [] -> ea_line nv <> [].
Proof.
  destruct nv as [n v]. cbn [fst]. intros H. unfold ea_line. cbn [fst snd]. destruct v; [exact H|].
  intros E. apply app_eq_nil in E. destruct E as [_ E]. discriminate.
Qed.
Lemma ea_alts e : plain_eas e -> alts_of ExtendedAttributes ea_record e = [].
Proof.
  intros (Hp & HN & H). destruct (file_hdr_ok _ Hp) as (H1 & H2 & H3).
  apply (no_alts _ _ _ (FILE_HDR ++ acl_quote (index_path (ea_index e))) (map ea_line (ea_dict e))).
  - apply join_nl_text.
  - exact H2.
  - apply Forall_map, Forall_forall. intros nv Hi. destruct (H (fst nv)) as [A B]; [now apply in_map|].
    apply visible_one_line. now apply ea_line_visible.
  - apply Forall_map, Forall_forall. intros nv Hi. destruct (H (fst nv)) as [A B]; [now apply in_map|].
    apply visible_no_alt; [now apply ea_line_visible|now apply ea_line_ne].
Qed.
Lemma aline_no_alt s : aline s -> is_alt (s ++ [nl]) = false.
Proof. intros (_ & _ & c & r & d & -> & H & _). exact (no_alt_line c (r ++ [d]) H). Qed.
Lemma acl_alts a : acl_ok a -> a_list a <> [] -> alts_of AccessControlLists acl_wr a = [].
Proof.
  intros (Hp & HL & HD & _) Hne.
  destruct (all_some_spec entry_text reads_as (a_list a)) as (ls & EL & FL).
  { intros e He. rewrite Forall_forall in HL. exact (entry_text_spec e (HL _ He)). }
  destruct (all_some_spec entry_text reads_as (a_default a)) as (ds & ED & FD).
  { intros e He. rewrite Forall_forall in HD. exact (entry_text_spec e (HD _ He)). }
  assert (Hls : ls <> []) by (intros ->; inversion FL as [Q|]; now apply Hne).
  destruct (file_hdr_ok _ Hp) as (H1 & H2 & H3).
  set (h := FILE_HDR ++ acl_quote (index_path (a_index a))) in *.
  set (body := ls ++ map (app (bs "default:")) ds).
  assert (ER : acl_record a = Some (rec_text (h, body))).
  { unfold acl_record, acl_str. destruct (a_list a) as [|e0 el]; [congruence|]. rewrite EL, ED. fold body.
    unfold rec_text, rec_lines. cbn [fst snd]. rewrite text_cons.
    assert (body <> []) by (unfold body; destruct ls; [congruence|discriminate]).
    destruct body as [|b bd]; [congruence|]. rewrite <- join_nl_text. unfold h. now rewrite <- !app_assoc. }
  assert (HB : Forall aline body).
  { unfold body. apply Forall_app. split.
    - clear - FL. induction FL as [|? ? ? ? (A & _)]; now constructor.
    - apply Forall_map. clear - FD. induction FD as [|? ? ? ? (A & _)]; constructor; try assumption. now apply aline_default. }
  apply (no_alts _ _ _ h body).
  - unfold acl_wr. now rewrite ER.
  - exact H2.
  - eapply Forall_impl; [|exact HB]. now intros s [].
  - eapply Forall_impl; [|exact HB]. apply aline_no_alt.
Qed.
