From Coq Require Import List ZArith Bool Ascii Lia.
From Verif Require Import Base L_Base M_Owners S_Owners.
Import List ListNotations.
Local Open Scope Z_scope.

(** * The database *)
Lemma NoDup_fst_inj (A B : Type) (l : list (A * B)) a b b' :
  NoDup (map fst l) -> In (a, b) l -> In (a, b') l -> b = b'.
Proof.
  induction l as [|x l IH]; intros N H H'; [easy|].
  cbn in N. inversion N as [|? ? Ni Nd]; subst.
  destruct H as [->|H], H' as [E|H'].
  - now injection E.
  - exfalso. apply Ni. apply in_map_iff. now exists (a, b').
  - subst x. exfalso. apply Ni. apply in_map_iff. now exists (a, b).
  - now apply IH.
Qed.
Lemma NoDup_snd_inj (A B : Type) (l : list (A * B)) a a' b :
  NoDup (map snd l) -> In (a, b) l -> In (a', b) l -> a = a'.
Proof.
  induction l as [|x l IH]; intros N H H'; [easy|].
  cbn in N. inversion N as [|? ? Ni Nd]; subst.
  destruct H as [->|H], H' as [E|H'].
  - now injection E.
  - exfalso. apply Ni. apply in_map_iff. now exists (a', b).
  - subst x. exfalso. apply Ni. apply in_map_iff. now exists (a, b).
  - now apply IH.
Qed.

Section DB.
Variable pw : passwd.

Lemma getpwnam_in n u : getpwnam pw n = Some u -> In (n, u) pw.
Proof.
  unfold getpwnam. destruct (find _ pw) as [[m v]|] eqn:F; cbn; [|easy].
  intros [= ->]. apply find_some in F. destruct F as [F E]. cbn in E.
  apply beq_bytes_true in E. now subst.
Qed.
Lemma getpwuid_in n u : getpwuid pw u = Some n -> In (n, u) pw.
Proof.
  unfold getpwuid. destruct (find _ pw) as [[m v]|] eqn:F; cbn; [|easy].
  intros [= ->]. apply find_some in F. destruct F as [F E]. cbn in E.
  apply Z.eqb_eq in E. now subst.
Qed.
Lemma getpwnam_none n : getpwnam pw n = None <-> no_user pw n.
Proof.
  unfold getpwnam, no_user. destruct (find _ pw) as [[m v]|] eqn:F; cbn; split; try easy.
  - intros H. apply find_some in F. destruct F as [F E]. cbn in E.
    apply beq_bytes_true in E. subst. now destruct (H v).
  - intros _ u H. pose proof (find_none _ _ F _ H) as E. cbn in E.
    now rewrite beq_bytes_refl in E.
Qed.

Hypothesis One : one_to_one pw.

Lemma getpwnam_spec n u : getpwnam pw n = Some u <-> is_user pw n u.
Proof using One.
  split; [apply getpwnam_in|]. intros H.
  destruct (getpwnam pw n) as [v|] eqn:E.
  - apply getpwnam_in in E. f_equal. exact (NoDup_fst_inj _ _ _ _ _ _ (proj1 One) E H).
  - apply getpwnam_none in E. now destruct (E u).
Qed.
Lemma getpwuid_spec n u : getpwuid pw u = Some n <-> is_user pw n u.
Proof using One.
  split; [apply getpwuid_in|]. intros H. unfold getpwuid.
  destruct (find _ pw) as [[m v]|] eqn:F; cbn.
  - apply find_some in F. destruct F as [F E]. cbn in E. apply Z.eqb_eq in E. subst v.
    f_equal. exact (NoDup_snd_inj _ _ _ _ _ _ (proj2 One) F H).
  - pose proof (find_none _ _ F _ H) as E. cbn in E. now rewrite Z.eqb_refl in E.
Qed.

(** * The caches *)
Definition coh (c : cache) : Prop :=
  (forall u r, look_id c u = Some r -> r = getpwuid pw u) /\
  (forall n r, look_name c n = Some r -> r = getpwnam pw n).

Lemma coh_empty : coh no_cache.
Proof. split; intros x r H; discriminate. Qed.

Lemma coh_set_id c u r : coh c -> r = getpwuid pw u -> coh (set_id u r c).
Proof.
  intros [H1 H2] E. split; [|exact H2]. intros v r'. unfold look_id. cbn.
  destruct (u =? v) eqn:Q; cbn.
  - apply Z.eqb_eq in Q. intros [= <-]. now subst.
  - apply H1.
Qed.
Lemma coh_set_name c n r : coh c -> r = getpwnam pw n -> coh (set_name n r c).
Proof.
  intros [H1 H2] E. split; [exact H1|]. intros v r'. unfold look_name. cbn.
  destruct (beq_bytes n v) eqn:Q; cbn.
  - apply beq_bytes_true in Q. intros [= <-]. now subst.
  - apply H2.
Qed.

Lemma uid2uname_ok c u : coh c -> fst (uid2uname pw u c) = getpwuid pw u /\ coh (snd (uid2uname pw u c)).
Proof using One.
  intros C. unfold uid2uname. destruct (look_id c u) as [r|] eqn:L.
  { split; [now apply C in L|exact C]. }
  destruct (getpwuid pw u) as [n|] eqn:G; cbn.
  - split; [easy|]. apply coh_set_id; [|easy]. apply coh_set_name; [exact C|].
    symmetry. apply getpwnam_spec. now apply getpwuid_spec.
  - split; [easy|]. now apply coh_set_id.
Qed.
Lemma uname2uid_ok c n : coh c -> fst (uname2uid pw n c) = getpwnam pw n /\ coh (snd (uname2uid pw n c)).
Proof using One.
  intros C. unfold uname2uid. destruct (look_name c n) as [r|] eqn:L.
  { split; [now apply C in L|exact C]. }
  destruct (getpwnam pw n) as [u|] eqn:G; cbn.
  - split; [easy|]. apply coh_set_name; [|easy]. apply coh_set_id; [exact C|].
    symmetry. apply getpwuid_spec. now apply getpwnam_spec.
  - split; [easy|]. now apply coh_set_name.
Qed.

(** * What the program computes, without the caches *)
Definition map_acl0 (m : owner_map) (id : Z) (name : option bytes) : option Z :=
  match m with
  | Numerical => Some id
  | Default => match given name with None => Some id | Some n => getpwnam pw n end
  | Defined d =>
      let by_id := match find (fun e => fst e =? id) (id_dict d) with Some e => snd e | None => None end in
      match given name with
      | None => by_id
      | Some n =>
          match find (fun e => beq_bytes (fst e) n) (name_dict d) with
          | Some e => snd e
          | None => match getpwnam pw n with Some z => Some z | None => by_id end
          end
      end
  end.

Lemma map_acl_ok m id name c : coh c ->
  fst (map_acl m pw id name c) = map_acl0 m id name /\ coh (snd (map_acl m pw id name c)).
Proof using One.
  intros C. destruct m as [|d|]; cbn [map_acl map_acl0]; [| |now split].
  - destruct (given name) as [n|]; [|now split]. now apply uname2uid_ok.
  - destruct (given name) as [n|]; [|now split].
    destruct (find _ (name_dict d)); [now split|].
    pose proof (uname2uid_ok c n C) as [E K].
    destruct (uname2uid pw n c) as [r c1]. cbn in E, K. subst r.
    now destruct (getpwnam pw n).
Qed.

Lemma map_owner_ok m id name c : coh c ->
  fst (map_owner m pw id name c) = or_same id (map_acl0 m id name) /\ coh (snd (map_owner m pw id name c)).
Proof using One.
  intros C. destruct m as [|d|]; cbn [map_owner]; [| |now split].
  - cbn [map_acl0]. destruct (given name) as [n|]; [|now split].
    pose proof (uname2uid_ok c n C) as [E K].
    destruct (uname2uid pw n c) as [r c1]. cbn in E, K. subst r. now destruct (getpwnam pw n).
  - pose proof (map_acl_ok (Defined d) id name c C) as [E K].
    destruct (map_acl (Defined d) pw id name c) as [r c1]. cbn [fst snd] in E, K. rewrite <- E.
    now destruct r.
Qed.

Definition serve0 (m : owner_map) (r : request) : answer :=
  match r with
  | AskName u => AName (getpwuid pw u)
  | AskId n => AId (getpwnam pw n)
  | AskOwner i n => AOwner (or_same i (map_acl0 m i n))
  | AskAcl i n => AId (map_acl0 m i n)
  end.

Lemma serve_ok m r c : coh c -> fst (serve m pw r c) = serve0 m r /\ coh (snd (serve m pw r c)).
Proof using One.
  intros C. destruct r as [u|n|i n|i n]; cbn [serve serve0].
  - pose proof (uid2uname_ok c u C) as [E K]. destruct (uid2uname pw u c). cbn in *. now subst.
  - pose proof (uname2uid_ok c n C) as [E K]. destruct (uname2uid pw n c). cbn in *. now subst.
  - pose proof (map_owner_ok m i n c C) as [E K]. destruct (map_owner m pw i n c). cbn in *. now subst.
  - pose proof (map_acl_ok m i n c C) as [E K]. destruct (map_acl m pw i n c). cbn in *. now subst.
Qed.

Lemma serve_all_ok m rs : forall c, coh c ->
  fst (serve_all m pw rs c) = map (serve0 m) rs /\ coh (snd (serve_all m pw rs c)).
Proof using One.
  induction rs as [|r rs IH]; intros c C; [now split|].
  cbn [serve_all map]. pose proof (serve_ok m r c C) as [E K].
  destruct (serve m pw r c) as [a c1]. cbn in E, K. subst a.
  destruct (IH c1 K) as [E2 K2]. destruct (serve_all m pw rs c1) as [l c2]. cbn in *. now subst.
Qed.

Lemma map_entries_ok m es : forall c, coh c ->
  fst (map_entries m pw es c) =
    flat_map (fun '(id, name, p) => match map_acl0 m id name with Some z => [(z, p)] | None => [] end) es /\
  coh (snd (map_entries m pw es c)).
Proof using One.
  induction es as [|[[id name] p] es IH]; intros c C; [now split|].
  cbn [map_entries flat_map]. pose proof (map_acl_ok m id name c C) as [E K].
  destruct (map_acl m pw id name c) as [v c1]. cbn in E, K. subst v.
  destruct (IH c1 K) as [E2 K2]. destruct (map_entries m pw es c1) as [l c2]. cbn in E2, K2. subst l.
  now destruct (map_acl0 m id name).
Qed.

(** * Reading the mapping file *)
Definition here_id (w : who) : option Z :=
  match w with ById z => Some z | ByName n => getpwnam pw n end.
Lemma here_spec w r : here pw w r <-> r = here_id w.
Proof using One.
  split.
  - intros H. destruct H; cbn; [easy| |].
    + symmetry. now apply getpwnam_spec.
    + symmetry. now apply getpwnam_none.
  - intros ->. destruct w as [z|n]; cbn; [apply H_id|].
    destruct (getpwnam pw n) eqn:E; [apply H_user; now apply getpwnam_spec|apply H_unknown; now apply getpwnam_none].
Qed.
End DB.

(** ** Numbers and blanks *)
Lemma blank_space c : blank c -> is_space c = true.
Proof.
  unfold blank, is_space. cbn [In].
  intros [<-|[<-|[<-|[<-|[<-|[<-|[<-|[<-|[<-|[]]]]]]]]]]; reflexivity.
Qed.
Lemma is_space_spec c : is_space c = true -> blank c \/ c = chr 10.
Proof.
  unfold is_space, blank. cbn [In]. intros H.
  apply orb_true_iff in H. rewrite !andb_true_iff, !N.leb_le in H.
  assert (ord c = 10%N \/ ord c <> 10%N) as [E|E] by lia.
  - right. rewrite <- (chr_ord c), E. reflexivity.
  - left. lia.
Qed.
Lemma digit_not_space c : is_digit c = true -> is_space c = false.
Proof.
  intros H. apply is_digit_ord in H. unfold is_space.
  apply orb_false_iff; split; apply andb_false_iff; rewrite !N.leb_gt; lia.
Qed.

Lemma lstrip_blanks w s : Forall blank w -> lstrip (w ++ s) = lstrip s.
Proof.
  induction 1 as [|c w B F IH]; cbn [app lstrip]; [easy|]. now rewrite (blank_space c B).
Qed.
Lemma lstrip_first c s : is_space c = false -> lstrip (c :: s) = c :: s.
Proof. intros H. cbn [lstrip]. now rewrite H. Qed.

(** text which begins and ends with something visible *)
Definition visible (s : bytes) : Prop :=
  (exists c r, s = c :: r /\ is_space c = false) /\ (exists r c, s = r ++ [c] /\ is_space c = false).
Lemma strip_visible w1 s w2 : Forall blank w1 -> Forall blank w2 -> visible s -> strip (w1 ++ s ++ w2) = s.
Proof.
  intros B1 B2 [(c & r & -> & V) (r' & c' & E & V')]. unfold strip.
  rewrite (lstrip_blanks w1 _ B1). change ((c :: r) ++ w2) with (c :: r ++ w2).
  rewrite (lstrip_first c _ V). change (c :: r ++ w2) with ((c :: r) ++ w2). rewrite E.
  rewrite rev_app_distr, lstrip_blanks by now apply Forall_rev.
  rewrite rev_app_distr. cbn [rev app]. rewrite (lstrip_first c' _ V').
  change (c' :: rev r') with ([c'] ++ rev r'). rewrite rev_app_distr, rev_involutive. reflexivity.
Qed.
Lemma strip_blank w : Forall blank w -> strip w = [].
Proof.
  intros B. unfold strip. rewrite <- (app_nil_r w), (lstrip_blanks w [] B). reflexivity.
Qed.

Lemma no_space_visible s : s <> [] -> (forall c, In c s -> is_space c = false) -> visible s.
Proof.
  intros N H. split.
  - destruct s as [|c r]; [easy|]. exists c, r. split; [easy|]. apply H. now left.
  - destruct (exists_last N) as [r [c ->]]. exists r, c. split; [easy|]. apply H.
    apply in_or_app. right. now left.
Qed.

Lemma us_digits_all s : s <> [] -> forallb is_digit s = true -> us_digits s = Some s.
Proof.
  induction s as [|c r IH]; [easy|]. intros _ D. cbn [forallb] in D. apply andb_true_iff in D.
  destruct D as [D1 D2]. cbn [us_digits]. rewrite D1. destruct r as [|d r]; [easy|].
  cbn [forallb] in D2. apply andb_true_iff in D2 as D3. destruct D3 as [D3 _].
  replace (Ascii.eqb d (chr 95)) with false.
  - rewrite IH; [easy|easy|]. exact D2.
  - symmetry. apply Ascii.eqb_neq. intros ->. discriminate.
Qed.

Lemma dec_Z_first z : exists c r, dec_Z z = c :: r /\ (is_digit c = true \/ c = chr 45) /\
  forallb is_digit r = true.
Proof.
  unfold dec_Z. destruct (z <? 0).
  - exists (chr 45), (dec (Z.to_N (- z))). split; [easy|]. split; [now right|]. apply dec_digits.
  - pose proof (dec_digits (Z.to_N z)) as D. pose proof (dec_nonempty (Z.to_N z)) as N.
    destruct (dec (Z.to_N z)) as [|c r]; [easy|]. exists c, r. cbn [forallb] in D.
    apply andb_true_iff in D. split; [easy|]. split; [now left|easy].
Qed.
Lemma dec_Z_no_space z c : In c (dec_Z z) -> is_space c = false.
Proof.
  destruct (dec_Z_first z) as (d & r & -> & F & D). intros [->|H].
  - destruct F as [F| ->]; [now apply digit_not_space|reflexivity].
  - apply digit_not_space. rewrite forallb_forall in D. now apply D.
Qed.
Lemma dec_Z_nonempty z : dec_Z z <> [].
Proof. destruct (dec_Z_first z) as (d & r & -> & _). easy. Qed.
Lemma dec_Z_no_colon z : ~ In (chr 58) (dec_Z z).
Proof.
  destruct (dec_Z_first z) as (d & r & -> & F & D). intros [->|H].
  - destruct F as [F|F]; discriminate.
  - rewrite forallb_forall in D. apply D in H. discriminate.
Qed.

Lemma strip_id s : visible s -> strip s = s.
Proof. intros V. rewrite <- (app_nil_r s) at 1. now apply (strip_visible [] s []). Qed.

Lemma py_int_dec z : py_int (dec_Z z) = Some z.
Proof.
  unfold py_int. rewrite strip_id.
  2:{ apply no_space_visible; [apply dec_Z_nonempty|apply dec_Z_no_space]. }
  unfold dec_Z. destruct (z <? 0) eqn:Q.
  - cbn [Ascii.eqb]. change (Ascii.eqb (chr 45) (chr 45)) with true. cbn iota.
    rewrite us_digits_all; [|apply dec_nonempty|apply dec_digits]. cbn [option_map].
    rewrite dval_dec. f_equal. apply Z.ltb_lt in Q. lia.
  - apply Z.ltb_ge in Q. pose proof (dec_digits (Z.to_N z)) as D.
    pose proof (us_digits_all _ (dec_nonempty (Z.to_N z)) D) as U.
    pose proof (dval_dec (Z.to_N z)) as V. pose proof (dec_nonempty (Z.to_N z)) as N.
    destruct (dec (Z.to_N z)) as [|c r]; [easy|].
    cbn [forallb] in D. apply andb_true_iff in D. destruct D as [D _].
    replace (Ascii.eqb c (chr 45)) with false by (symmetry; apply Ascii.eqb_neq; intros ->; discriminate).
    replace (Ascii.eqb c (chr 43)) with false by (symmetry; apply Ascii.eqb_neq; intros ->; discriminate).
    rewrite U. cbn [option_map]. rewrite V. f_equal. lia.
Qed.

Definition odd_byte (c : ascii) : Prop :=
  ~ (48 <= ord c <= 57)%N /\ c <> chr 43 /\ c <> chr 45 /\ c <> chr 95.
Lemma us_digits_odd s c : In c s -> odd_byte c -> us_digits s = None.
Proof.
  remember (List.length s) as k eqn:K. revert s K.
  induction k as [k IH] using lt_wf_ind. intros s -> H O.
  destruct s as [|d t]; [easy|]. cbn [us_digits].
  destruct (is_digit d) eqn:D; [|easy].
  destruct H as [->|H]. { apply is_digit_ord in D. destruct O as [O _]. lia. }
  destruct t as [|e r]; [easy|].
  destruct (Ascii.eqb e (chr 95)) eqn:Q.
  - apply Ascii.eqb_eq in Q. subst e. destruct H as [<-|H]. { now destruct O as (_ & _ & _ & O). }
    now rewrite (IH (List.length r)) by (cbn; auto with arith).
  - now rewrite (IH (List.length (e :: r))) by (cbn; auto with arith).
Qed.

Lemma name_like_no_space n c : name_like (ByName n) -> In c n -> is_space c = false.
Proof.
  intros [H _] I. destruct (is_space c) eqn:E; [|easy].
  apply is_space_spec in E. destruct (H c I) as (H1 & H2 & _). now destruct E.
Qed.
Lemma name_like_nonempty w : name_like w -> show w <> [].
Proof.
  destruct w as [z|n]; intros H; [apply dec_Z_nonempty|].
  destruct H as [_ (c & I & _)]. cbn. intros ->. easy.
Qed.
Lemma show_no_space w c : name_like w -> In c (show w) -> is_space c = false.
Proof.
  destruct w as [z|n]; intros H I; [now apply (dec_Z_no_space z)|now apply (name_like_no_space n)].
Qed.
Lemma show_no_colon w : name_like w -> ~ In (chr 58) (show w).
Proof.
  destruct w as [z|n]; intros H; [apply dec_Z_no_colon|]. cbn. intros I.
  destruct H as [H _]. now destruct (H _ I) as (_ & _ & C).
Qed.
Lemma py_int_show w : name_like w ->
  py_int (show w) = match w with ById z => Some z | ByName _ => None end.
Proof.
  destruct w as [z|n]; intros H; [apply py_int_dec|]. cbn [show].
  unfold py_int. rewrite strip_id.
  2:{ apply no_space_visible; [now apply (name_like_nonempty (ByName n))|].
      intros c. now apply name_like_no_space. }
  destruct H as [H (c & I & O)]. fold (odd_byte c) in O. destruct n as [|d r]; [easy|].
  destruct (Ascii.eqb d (chr 45)) eqn:Q1.
  { apply Ascii.eqb_eq in Q1. subst d. destruct I as [<-|I]; [now destruct O as (_ & _ & O & _)|].
    now rewrite (us_digits_odd r c I O). }
  destruct (Ascii.eqb d (chr 43)) eqn:Q2.
  { apply Ascii.eqb_eq in Q2. subst d. destruct I as [<-|I]; [now destruct O as (_ & O & _)|].
    now rewrite (us_digits_odd r c I O). }
  now rewrite (us_digits_odd (d :: r) c I O).
Qed.

Section Parse.
Variable pw : passwd.
Hypothesis One : one_to_one pw.

Lemma get_new_id_ok w c : name_like w -> coh pw c ->
  fst (get_new_id pw (show w) c) = here_id pw w /\ coh pw (snd (get_new_id pw (show w) c)).
Proof using One.
  intros W C. unfold get_new_id. rewrite (py_int_show w W). destruct w as [z|n]; [now split|].
  cbn. now apply uname2uid_ok.
Qed.

(** the dictionaries hold the last entries *)
Definition dicts_say (d : dicts) (es : list (who * who)) : Prop :=
  (forall n, unlisted es (ByName n) -> find (fun e => beq_bytes (fst e) n) (name_dict d) = None) /\
  (forall z, unlisted es (ById z) -> find (fun e => fst e =? z) (id_dict d) = None) /\
  (forall n w, listed es (ByName n) w ->
     exists k, find (fun e => beq_bytes (fst e) n) (name_dict d) = Some (k, here_id pw w)) /\
  (forall z w, listed es (ById z) w ->
     exists k, find (fun e => fst e =? z) (id_dict d) = Some (k, here_id pw w)).

Lemma listed_snoc es a b w d : listed (es ++ [(a, b)]) w d ->
  (w = a /\ d = b) \/ (w <> a /\ listed es w d).
Proof.
  intros (e1 & e2 & E & N). destruct e2 as [|x e2] using rev_ind.
  - apply app_inj_tail in E. destruct E as [_ E]. injection E as -> ->. now left.
  - clear IHe2. change (e1 ++ (w, d) :: e2 ++ [x]) with (e1 ++ ((w, d) :: e2) ++ [x]) in E.
    rewrite app_assoc in E. apply app_inj_tail in E. destruct E as [E X]. subst x.
    right. split.
    + intros ->. apply (N b). apply in_or_app. right. now left.
    + exists e1, e2. split; [exact E|]. intros d' I. apply (N d'). apply in_or_app. now left.
Qed.
Lemma unlisted_snoc es a b w : unlisted (es ++ [(a, b)]) w -> w <> a /\ unlisted es w.
Proof.
  intros H. split.
  - intros ->. apply (H b). apply in_or_app. right. now left.
  - intros d I. apply (H d). apply in_or_app. now left.
Qed.

Lemma dicts_say_nil : dicts_say (mk_dicts [] []) [].
Proof.
  repeat split; intros; try easy.
  - now destruct H as ([|] & ? & ? & _).
  - now destruct H as ([|] & ? & ? & _).
Qed.

Lemma dicts_say_add d es a b : dicts_say d es ->
  dicts_say (match a with
             | ById z => mk_dicts (name_dict d) ((z, here_id pw b) :: id_dict d)
             | ByName n => mk_dicts ((n, here_id pw b) :: name_dict d) (id_dict d)
             end) (es ++ [(a, b)]).
Proof.
  intros (U1 & U2 & L1 & L2). destruct a as [z0|n0].
  - repeat split; cbn [name_dict id_dict find fst snd].
    + intros n H. apply U1. now apply unlisted_snoc in H.
    + intros z H. apply unlisted_snoc in H. destruct H as [H1 H2].
      replace (z0 =? z) with false by (symmetry; apply Z.eqb_neq; congruence). now apply U2.
    + intros n w H. apply listed_snoc in H. destruct H as [[H _]|[_ H]]; [discriminate|]. now apply L1.
    + intros z w H. apply listed_snoc in H. destruct H as [[E ->]|[N H]].
      * injection E as ->. rewrite Z.eqb_refl. now exists z0.
      * replace (z0 =? z) with false by (symmetry; apply Z.eqb_neq; congruence). now apply L2.
  - repeat split; cbn [name_dict id_dict find fst snd].
    + intros n H. apply unlisted_snoc in H. destruct H as [H1 H2].
      replace (beq_bytes n0 n) with false by (symmetry; apply beq_bytes_false; congruence). now apply U1.
    + intros z H. apply U2. now apply unlisted_snoc in H.
    + intros n w H. apply listed_snoc in H. destruct H as [[E ->]|[N H]].
      * injection E as ->. rewrite beq_bytes_refl. now exists n0.
      * replace (beq_bytes n0 n) with false by (symmetry; apply beq_bytes_false; congruence). now apply L1.
    + intros z w H. apply listed_snoc in H. destruct H as [[H _]|[_ H]]; [discriminate|]. now apply L2.
Qed.

Lemma entry_visible a b : name_like a -> name_like b -> visible (show a ++ bs ":" ++ show b).
Proof.
  intros A B. split.
  - pose proof (name_like_nonempty a A) as N. pose proof (fun c => show_no_space a c A) as V.
    destruct (show a) as [|c r]; [easy|]. exists c, (r ++ bs ":" ++ show b). split; [easy|]. apply V. now left.
  - destruct (exists_last (name_like_nonempty b B)) as [r [c E]].
    exists (show a ++ bs ":" ++ r), c. rewrite E, !app_assoc. split; [easy|].
    apply (show_no_space b c B). rewrite E. apply in_or_app. right. now left.
Qed.

Lemma add_line_ok l e d c es : line_says l e -> dicts_say d es -> coh pw c ->
  exists d' c', add_line pw l (d, c) = Some (d', c') /\ dicts_say d' (es ++ e) /\ coh pw c'.
Proof using One.
  intros L D C. destruct L as [w B|w1 old new w2 B1 B2 O N].
  - exists d, c. unfold add_line. rewrite (strip_blank w B), app_nil_r. split; [reflexivity|]. split; assumption.
  - unfold add_line.
    replace (w1 ++ show old ++ bs ":" ++ show new ++ w2) with (w1 ++ (show old ++ bs ":" ++ show new) ++ w2)
      by now rewrite <- !app_assoc.
    rewrite (strip_visible w1 _ w2 B1 B2 (entry_visible old new O N)).
    assert (S : split_on (chr 58) (show old ++ bs ":" ++ show new) = [show old; show new]).
    { pose proof (split_join (chr 58) [show old; show new]) as J. apply J; [easy|].
      intros x [<-|[<-|[]]]; now apply show_no_colon. }
    pose proof (name_like_nonempty old O) as NE.
    remember (show old ++ bs ":" ++ show new) as l eqn:El.
    destruct l as [|ch r]. { now destruct (show old). }
    rewrite S. pose proof (get_new_id_ok new c N C) as [E K].
    destruct (get_new_id pw (show new) c) as [v c1]. cbn in E, K. subst v.
    rewrite (py_int_show old O). pose proof (dicts_say_add d es old new D) as DS. destruct old as [z|n].
    + eexists _, _. split; [reflexivity|]. split; assumption.
    + pose proof (get_new_id_ok new c1 N K) as [E K2].
      destruct (get_new_id pw (show new) c1) as [v c2]. cbn in E, K2. subst v.
      eexists _, _. split; [reflexivity|]. split; assumption.
Qed.

Lemma add_lines_ok ls e : file_says ls e -> forall d c es, dicts_say d es -> coh pw c ->
  exists d' c', add_lines pw ls (d, c) = Some (d', c') /\ dicts_say d' (es ++ e) /\ coh pw c'.
Proof using One.
  induction 1 as [|l e ls es' L F IH]; intros d c es D C.
  - exists d, c. rewrite app_nil_r. split; [reflexivity|]. split; assumption.
  - destruct (add_line_ok l e d c es L D C) as (d1 & c1 & A & D1 & C1).
    destruct (IH d1 c1 (es ++ e) D1 C1) as (d2 & c2 & A2 & D2 & C2).
    exists d2, c2. cbn [add_lines]. rewrite A, app_assoc. split; [assumption|]. split; assumption.
Qed.

Lemma listed_dec es w : unlisted es w \/ exists d, listed es w d.
Proof.
  induction es as [|[a b] es IH] using rev_ind; [now left|].
  assert (D : {w = a} + {w <> a}). { decide equality; [apply Z.eq_dec|apply list_eq_dec, ascii_dec]. }
  destruct D as [->|N].
  - right. exists b, es, []. split; [easy|]. intros d' [].
  - destruct IH as [U|[d (e1 & e2 & -> & F)]].
    + left. intros d I. apply in_app_or in I. destruct I as [I|[E|[]]]; [now apply (U d)|congruence].
    + right. exists d, e1, (e2 ++ [(a, b)]). split; [now rewrite <- app_assoc|].
      intros d' I. apply in_app_or in I. destruct I as [I|[E|[]]]; [now apply (F d')|congruence].
Qed.

Lemma given_spec name : (given name = None /\ nameless name) \/
  (exists n, name = Some n /\ given name = Some n /\ n <> []).
Proof.
  destruct name as [[|c n]|]; cbn.
  - left. split; [easy|now right].
  - right. now exists (c :: n).
  - left. split; [easy|now left].
Qed.

Lemma by_file_ok d es id name r : dicts_say d es ->
  (by_file pw es id name r <-> r = map_acl0 pw (Defined d) id name).
Proof using One.
  intros (U1 & U2 & L1 & L2). cbn [map_acl0]. split.
  - intros B. destruct B as [n x r NE L H|n u NE U K|name x r C L H|name C U].
    + destruct (given_spec (Some n)) as [[_ [E|E]]|(n' & [= <-] & -> & _)]; [easy|congruence|].
      destruct (L1 n x L) as [k ->]. cbn. now apply here_spec.
    + destruct (given_spec (Some n)) as [[_ [E|E]]|(n' & [= <-] & -> & _)]; [easy|congruence|].
      rewrite (U1 n U). apply getpwnam_spec in K; [|exact One]. now rewrite K.
    + destruct (L2 id x L) as [k F]. rewrite F. cbn. apply here_spec in H; [|exact One]. subst r.
      destruct C as [C|(n & -> & NE & U & N)].
      * destruct (given_spec name) as [[-> _]|(n & -> & _ & NE)]; [easy|]. now destruct C as [C|[= C]].
      * destruct (given_spec (Some n)) as [[_ [E|E]]|(n' & [= <-] & -> & _)]; [easy|congruence|].
        rewrite (U1 n U). apply getpwnam_none in N. now rewrite N.
    + rewrite (U2 id U).
      destruct C as [C|(n & -> & NE & Un & N)].
      * destruct (given_spec name) as [[-> _]|(n & -> & _ & NE)]; [easy|]. now destruct C as [C|[= C]].
      * destruct (given_spec (Some n)) as [[_ [E|E]]|(n' & [= <-] & -> & _)]; [easy|congruence|].
        rewrite (U1 n Un). apply getpwnam_none in N. now rewrite N.
  - intros ->. destruct (given_spec name) as [[G NL]|(n & -> & G & NE)]; rewrite G.
    + destruct (listed_dec es (ById id)) as [U|[x L]].
      * rewrite (U2 id U). apply B_none; [now left|exact U].
      * destruct (L2 id x L) as [k F]. rewrite F. apply (B_id _ _ _ _ x); [now left|exact L|]. now apply here_spec.
    + destruct (listed_dec es (ByName n)) as [U|[x L]].
      * rewrite (U1 n U). destruct (getpwnam pw n) as [u|] eqn:P.
        { apply B_same; [exact NE|exact U|]. now apply getpwnam_spec. }
        apply getpwnam_none in P.
        destruct (listed_dec es (ById id)) as [U'|[x L]].
        -- rewrite (U2 id U'). apply B_none; [right; now exists n|exact U'].
        -- destruct (L2 id x L) as [k F]. rewrite F.
           apply (B_id _ _ _ _ x); [right; now exists n|exact L|]. now apply here_spec.
      * destruct (L1 n x L) as [k F]. rewrite F. apply (B_name _ _ _ _ x); [exact NE|exact L|]. now apply here_spec.
Qed.

Lemma by_default_ok id name r : by_default pw id name r <-> r = map_acl0 pw Default id name.
Proof using One.
  cbn [map_acl0]. split.
  - intros B. destruct B as [name C|n u NE K|n NE N].
    + destruct (given_spec name) as [[-> _]|(n & -> & _ & NE)]; [easy|]. now destruct C as [C|[= C]].
    + destruct (given_spec (Some n)) as [[_ [E|E]]|(n' & [= <-] & -> & _)]; [easy|congruence|].
      symmetry. now apply getpwnam_spec.
    + destruct (given_spec (Some n)) as [[_ [E|E]]|(n' & [= <-] & -> & _)]; [easy|congruence|].
      symmetry. now apply getpwnam_none.
  - intros ->. destruct (given_spec name) as [[G NL]|(n & -> & G & NE)]; rewrite G.
    + now apply D_nameless.
    + destruct (getpwnam pw n) as [u|] eqn:P.
      * apply D_known; [exact NE|]. now apply getpwnam_spec.
      * apply D_unknown; [exact NE|]. now apply getpwnam_none.
Qed.
End Parse.
