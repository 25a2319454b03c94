From Coq Require Import List ZArith Bool Ascii Lia.
From Verif Require Import Base L_Base M_Location S_Location.
Import List ListNotations.
Local Open Scope Z_scope.

Lemma eqb_bs c : Ascii.eqb c bslash = true <-> c = bslash.
Proof. apply Ascii.eqb_eq. Qed.

(** ** unquoting a part *)
Fixpoint unq (s : bytes) : bytes :=
  match s with
  | [] => []
  | c :: s1 =>
      match s1 with
      | [] => [c]
      | d :: s2 =>
          if Ascii.eqb c bslash && (Ascii.eqb d bslash || Ascii.eqb d colon) then d :: unq s2
          else c :: unq s1
      end
  end.

Lemma split_pairs_cons s : forall acc, exists x l, split_pairs acc s = (acc ++ x) :: l /\ split_pairs [] s = x :: l.
Proof.
  induction s as [s IH] using (well_founded_induction (Wf_nat.well_founded_ltof _ (@length ascii))).
  intros acc. destruct s as [|c s1]; [exists [], []; split; cbn; [now rewrite app_nil_r|reflexivity]|].
  destruct s1 as [|d s2].
  - exists [c], []. now split.
  - cbn [split_pairs]. destruct (Ascii.eqb c bslash && Ascii.eqb d bslash).
    + exists [], (split_pairs [] s2). now rewrite app_nil_r.
    + destruct (IH (d :: s2)) with (acc := acc ++ [c]) as (x & l & E1 & E2); [unfold Wf_nat.ltof; cbn; lia|].
      destruct (IH (d :: s2)) with (acc := [c]) as (x' & l' & E3 & E4); [unfold Wf_nat.ltof; cbn; lia|].
      rewrite E2 in E4. injection E4 as -> ->. exists ([c] ++ x'), l'. cbn [split_pairs] in E1, E3. rewrite E1. cbn [app]. split; [now rewrite <- app_assoc|exact E3].
Qed.
Lemma replace_one c s : Ascii.eqb c bslash = false -> replace_colons (c :: s) = c :: replace_colons s.
Proof. intros H. cbn [replace_colons]. rewrite H. cbn [andb]. now destruct s. Qed.

Lemma split_pairs_2 acc c d s2 : split_pairs acc (c :: d :: s2) =
  if Ascii.eqb c bslash && Ascii.eqb d bslash then acc :: split_pairs [] s2 else split_pairs (acc ++ [c]) (d :: s2).
Proof. reflexivity. Qed.
Lemma unq_2 c d s2 : unq (c :: d :: s2) =
  if Ascii.eqb c bslash && (Ascii.eqb d bslash || Ascii.eqb d colon) then d :: unq s2 else c :: unq (d :: s2).
Proof. reflexivity. Qed.

Lemma unquote_part_unq s : unquote_part s = unq s.
Proof.
  induction s as [s IH] using (well_founded_induction (Wf_nat.well_founded_ltof _ (@length ascii))).
  assert (Step : forall c s', (length s' < length s)%nat -> replace_colons (c :: (hd [] (split_pairs [] s'))) = c :: replace_colons (hd [] (split_pairs [] s')) ->
     join_with [bslash] (map replace_colons (split_pairs [c] s')) = c :: unq s').
  { intros c s' L R. destruct (split_pairs_cons s' [c]) as (x & l & E1 & E2). rewrite E1. rewrite <- IH by exact L. unfold unquote_part. rewrite E2 in *.
    cbn [hd] in R. cbn [map app]. rewrite R. destruct (map replace_colons l); reflexivity. }
  destruct s as [|c s1]; [reflexivity|]. destruct s1 as [|d s2]; [reflexivity|].
  unfold unquote_part. rewrite split_pairs_2, unq_2.
  destruct (Ascii.eqb c bslash) eqn:C; cbn [andb].
  - apply eqb_bs in C as ->. destruct (Ascii.eqb d bslash) eqn:D; cbn [orb].
    + apply eqb_bs in D as ->. rewrite <- IH by (unfold Wf_nat.ltof; cbn; lia). unfold unquote_part. cbn [map replace_colons].
      destruct (split_pairs_cons s2 []) as (x & l & E & _). rewrite E. reflexivity.
    + destruct (Ascii.eqb d colon) eqn:E.
      * apply Ascii.eqb_eq in E as ->. destruct s2 as [|e s3]; [reflexivity|].
        rewrite split_pairs_2. change (Ascii.eqb colon bslash) with false. cbn [andb app].
        destruct (split_pairs_cons (e :: s3) [bslash; colon]) as (x & l & E1 & E2). rewrite E1. rewrite <- IH by (unfold Wf_nat.ltof; cbn; lia).
        unfold unquote_part. rewrite E2. cbn [map app replace_colons].
        change (Ascii.eqb bslash bslash && Ascii.eqb colon colon) with true. cbv iota. destruct (map replace_colons l); reflexivity.
      * apply Step; [cbn; lia|]. destruct s2 as [|e s3].
        -- cbn [split_pairs hd app replace_colons]. rewrite E. now rewrite andb_false_r.
        -- rewrite split_pairs_2, D. cbn [andb app]. destruct (split_pairs_cons (e :: s3) [d]) as (x & l & E1 & _). rewrite E1. cbn [hd app].
           cbn [replace_colons]. rewrite E. now rewrite andb_false_r.
  - apply Step; [cbn; lia|]. now apply replace_one.
Qed.

(** ** the parts *)
Fixpoint raws (acc : bytes) (run : nat) (s : bytes) : list bytes :=
  match s with
  | [] => [acc ++ repeat bslash run]
  | c :: s1 =>
      if Ascii.eqb c bslash then raws acc (S run) s1
      else
        match s1 with
        | d :: s2 =>
            if Ascii.eqb c colon && Ascii.eqb d colon && Nat.even run then
              (acc ++ repeat bslash run) :: raws [] 0 s2
            else raws (acc ++ repeat bslash run ++ [c]) 0 s1
        | [] => raws (acc ++ repeat bslash run ++ [c]) 0 s1
        end
  end.

Lemma repeat_snoc {A} (x : A) n : repeat x n ++ [x] = x :: repeat x n.
Proof. induction n as [|n IH]; [reflexivity|]. cbn [repeat app]. now rewrite IH. Qed.

Lemma only_pairs_spec p : only_pairs p = true ->
  (exists k, p = repeat bslash (S (S k))) \/ (exists k, p = repeat bslash k ++ [bslash; bslash; nl]).
Proof.
  induction p as [p IH] using (well_founded_induction (Wf_nat.well_founded_ltof _ (@length ascii))).
  destruct p as [|c [|d r]]; try discriminate. cbn [only_pairs]. intros H. apply andb_true_iff in H as (H & H2).
  apply andb_true_iff in H as (H & H1). apply eqb_bs in H, H1. subst c d.
  destruct r as [|e r']; [left; now exists O|]. destruct r' as [|g r''].
  - apply Ascii.eqb_eq in H2. subst e. right. now exists O.
  - apply IH in H2; [|unfold Wf_nat.ltof; cbn; lia]. destruct H2 as [(k & ->)|(k & ->)].
    + left. now exists (S (S k)).
    + right. now exists (S (S k)).
Qed.

Definition stitch_go := fold_right (fun part '(keep, acc) =>
    if only_pairs part then (Some part, acc)
    else (None, (match keep with Some k => part ++ k | None => part end) :: acc)) ((None : option bytes), ([] : list bytes)).

Lemma begins_more a a' : begins_part a' -> begins_part (a ++ [colon; colon] ++ a').
Proof.
  intros [->|(x & ->)]; right; [exists a; now rewrite app_nil_r|]. exists (a ++ [colon; colon] ++ x). now rewrite <- !app_assoc.
Qed.
Lemma tidy_tail a s : tidy (a ++ [colon; colon] ++ s) -> tidy s.
Proof.
  intros (T1 & T2 & T3). split; [|split].
  - intros x y n Hx ->. apply (T1 (a ++ [colon; colon] ++ x) y n); [|now rewrite <- !app_assoc].
    intros z E. destruct x as [|x0 x] using rev_ind.
    + change (a ++ [colon; colon] ++ []) with (a ++ [colon] ++ [colon]) in E. rewrite app_assoc in E. apply app_inj_tail in E as (_ & E). discriminate.
    + rewrite !app_assoc in E. apply app_inj_tail in E as (_ & ->). now apply (Hx x).
  - intros x n Hx ->. apply (T2 (a ++ [colon; colon] ++ x) n); [now apply begins_more|]. now rewrite <- !app_assoc.
  - intros x y n Hx ->. apply (T3 (a ++ [colon; colon] ++ x) y n); [now apply begins_more|]. now rewrite <- !app_assoc.
Qed.

Lemma pairs_nl k : repeat bslash k ++ [bslash; bslash; nl] = repeat bslash (S (S k)) ++ [nl].
Proof. induction k as [|k IH]; [reflexivity|]. cbn [repeat app] in *. now rewrite IH. Qed.
Lemma pairs_not_acc acc rest : (acc = [] \/ exists a c, acc = a ++ [c] /\ c <> bslash) ->
  (forall a b n, begins_part a -> acc ++ rest <> a ++ repeat bslash (S n) ++ [nl] ++ b) -> only_pairs acc = false.
Proof.
  intros Ha T3. destruct (only_pairs acc) eqn:O; [|reflexivity]. exfalso. apply only_pairs_spec in O as [(k & E)|(k & E)].
  - destruct Ha as [->|(a & c & -> & N)]; [discriminate|]. change (repeat bslash (S (S k))) with (bslash :: repeat bslash (S k)) in E.
    rewrite <- repeat_snoc in E. apply app_inj_tail in E as (_ & ->). now apply N.
  - apply (T3 [] rest (S k)); [now left|]. rewrite E, pairs_nl, <- app_assoc. reflexivity.
Qed.

Lemma stitch_raws s : forall acc run, tidy (acc ++ repeat bslash run ++ s) ->
  (acc = [] \/ exists a c, acc = a ++ [c] /\ c <> bslash) ->
  stitch_go (re_split acc run s) = (None, raws acc run s).
Proof.
  induction s as [s IH] using (well_founded_induction (Wf_nat.well_founded_ltof _ (@length ascii))).
  intros acc run T Ha. destruct s as [|c s1].
  - cbn [re_split raws stitch_go fold_right]. rewrite app_nil_r in T. destruct T as (T1 & T2 & T3).
    destruct (only_pairs (acc ++ repeat bslash run)) eqn:O; [|reflexivity]. exfalso.
    apply only_pairs_spec in O as [(k & E)|(k & E)]; [now apply (T2 [] (S k) (or_introl eq_refl))|].
    apply (T3 [] [] (S k)); [now left|]. rewrite E, pairs_nl. reflexivity.
  - cbn [re_split raws]. destruct (Ascii.eqb c bslash) eqn:C.
    + apply eqb_bs in C as ->. apply IH; [unfold Wf_nat.ltof; cbn; lia| |assumption].
      replace (repeat bslash (S run) ++ s1) with (repeat bslash run ++ bslash :: s1); [assumption|].
      change (bslash :: s1) with ([bslash] ++ s1). rewrite app_assoc, repeat_snoc. reflexivity.
    + assert (F : stitch_go (re_split (acc ++ repeat bslash run ++ [c]) 0 s1) = (None, raws (acc ++ repeat bslash run ++ [c]) 0 s1)).
      { apply IH; [unfold Wf_nat.ltof; cbn; lia| |].
        - cbn [repeat]. rewrite <- !app_assoc. exact T.
        - right. exists (acc ++ repeat bslash run), c. rewrite app_assoc. split; [reflexivity|]. intros ->. discriminate. }
      destruct s1 as [|d s2]; [exact F|].
      destruct (Ascii.eqb c colon && Ascii.eqb d colon && Nat.even run) eqn:Sep; [|exact F].
      apply andb_true_iff in Sep as (Sep & Ev). apply andb_true_iff in Sep as (Ec & Ed). apply Ascii.eqb_eq in Ec, Ed. subst c d.
      assert (R : stitch_go (re_split [] 0 s2) = (None, raws [] 0 s2)).
      { apply IH; [unfold Wf_nat.ltof; cbn; lia| |now left]. apply (tidy_tail (acc ++ repeat bslash run)). rewrite <- app_assoc. exact T. }
      assert (O : only_pairs acc = false) by (apply (pairs_not_acc acc (repeat bslash run ++ colon :: colon :: s2)); [assumption|apply T]).
      destruct run as [|[|[|run]]]; [| discriminate | |].
      * cbn [app repeat]. unfold stitch_go in *. cbn [fold_right]. rewrite R, O. now rewrite app_nil_r.
      * cbn [app]. unfold stitch_go in *. cbn [fold_right]. rewrite R. cbn [only_pairs]. change (Ascii.eqb bslash bslash) with true. cbn [andb].
        rewrite O. reflexivity.
      * exfalso. destruct run as [|run]; [discriminate|]. destruct T as (T1 & _).
        assert (Ev' : Nat.even run = true) by exact Ev. apply Nat.even_spec in Ev' as (m & ->).
        apply (T1 acc s2 m); [|reflexivity].
        intros a' ->. destruct Ha as [Ha|(a & c & Ha & N)]; [now destruct a'|]. apply app_inj_tail in Ha as (_ & <-). now apply N.
Qed.

(** ** the same as what is between the separators *)
Definition complete (p : bytes) : Prop := forall s, unq (p ++ s) = unq p ++ unq s.
Lemma complete_pair p d : complete p -> (d = bslash \/ d = colon) -> complete (p ++ [bslash; d]) /\ unq (p ++ [bslash; d]) = unq p ++ [d].
Proof.
  intros H D. assert (U : forall s, unq (bslash :: d :: s) = d :: unq s).
  { intros s. rewrite unq_2. destruct D as [->| ->]; reflexivity. }
  assert (E : unq (p ++ [bslash; d]) = unq p ++ [d]) by now rewrite H, U.
  split; [|exact E]. intros s. rewrite <- app_assoc, H, E. cbn [app]. rewrite U. now rewrite <- app_assoc.
Qed.
Lemma unq_other c s : c <> bslash -> unq (c :: s) = c :: unq s.
Proof.
  intros N. destruct s as [|d s]; [reflexivity|]. rewrite unq_2. destruct (Ascii.eqb c bslash) eqn:C; [apply eqb_bs in C; contradiction|reflexivity].
Qed.
Lemma complete_other p c : complete p -> c <> bslash -> complete (p ++ [c]) /\ unq (p ++ [c]) = unq p ++ [c].
Proof.
  intros H N. assert (E : unq (p ++ [c]) = unq p ++ [c]) by now rewrite H.
  split; [|exact E]. intros s. rewrite <- app_assoc, H, E. cbn [app]. rewrite unq_other by assumption. now rewrite <- app_assoc.
Qed.
Lemma complete_single p c : complete p -> c <> bslash -> c <> colon ->
  complete (p ++ [bslash; c]) /\ unq (p ++ [bslash; c]) = unq p ++ [bslash; c].
Proof.
  intros H N1 N2. assert (U : forall s, unq (bslash :: c :: s) = bslash :: c :: unq s).
  { intros s. rewrite unq_2. rewrite <- Ascii.eqb_neq in N1, N2. rewrite N1, N2. cbn [orb andb]. rewrite andb_false_r. f_equal.
    apply unq_other. now apply Ascii.eqb_neq. }
  assert (E : unq (p ++ [bslash; c]) = unq p ++ [bslash; c]) by now rewrite H, U.
  split; [|exact E]. intros s. rewrite <- app_assoc, H, E. cbn [app]. rewrite U. now rewrite <- app_assoc.
Qed.

Lemma raws_pair s : forall acc run, raws acc (S (S run)) s = raws (acc ++ [bslash; bslash]) run s.
Proof.
  induction s as [s IH] using (well_founded_induction (Wf_nat.well_founded_ltof _ (@length ascii))).
  intros acc run.
  assert (R : acc ++ repeat bslash (S (S run)) = (acc ++ [bslash; bslash]) ++ repeat bslash run) by now rewrite <- app_assoc.
  assert (R' : forall c, acc ++ repeat bslash (S (S run)) ++ [c] = (acc ++ [bslash; bslash]) ++ repeat bslash run ++ [c]) by (intros c; now rewrite <- app_assoc).
  destruct s as [|c s1].
  - cbn [raws]. now rewrite R.
  - cbn [raws]. destruct (Ascii.eqb c bslash); [apply IH; unfold Wf_nat.ltof; cbn; lia|]. rewrite R'.
    destruct s1 as [|d s2]; [reflexivity|]. change (Nat.even (S (S run))) with (Nat.even run). now rewrite R.
Qed.

Lemma between_2 raw cur c d s2 : between raw cur (c :: d :: s2) =
  if Ascii.eqb c bslash && (Ascii.eqb d bslash || Ascii.eqb d colon) then between (raw ++ [c; d]) (cur ++ [d]) s2
  else if Ascii.eqb c colon && Ascii.eqb d colon then (raw, cur) :: between [] [] s2
  else between (raw ++ [c]) (cur ++ [c]) (d :: s2).
Proof. reflexivity. Qed.
Lemma between_other raw cur c s : c <> bslash -> c <> colon -> between raw cur (c :: s) = between (raw ++ [c]) (cur ++ [c]) s.
Proof.
  intros N1 N2. destruct s as [|d s]; [reflexivity|]. rewrite between_2. rewrite <- Ascii.eqb_neq in N1, N2. now rewrite N1, N2.
Qed.

Lemma raws_between s : forall p, complete p -> map (fun r => (r, unq r)) (raws p 0 s) = between p (unq p) s.
Proof.
  induction s as [s IH] using (well_founded_induction (Wf_nat.well_founded_ltof _ (@length ascii))).
  intros p H. destruct s as [|c s1]; [cbn; now rewrite app_nil_r|].
  destruct (Ascii.eqb c bslash) eqn:C.
  - apply eqb_bs in C as ->. destruct s1 as [|d s2].
    + cbn. f_equal. f_equal. apply (H [bslash]).
    + destruct (Ascii.eqb d bslash) eqn:D.
      * apply eqb_bs in D as ->. cbn [raws]. change (Ascii.eqb bslash bslash) with true. cbv iota. rewrite raws_pair.
        destruct (complete_pair p bslash H) as (H' & E); [now left|]. rewrite IH; [|unfold Wf_nat.ltof; cbn; lia|assumption].
        rewrite E, between_2. reflexivity.
      * assert (X : raws p 0 (bslash :: d :: s2) = raws (p ++ [bslash; d]) 0 s2).
        { cbn [raws]. change (Ascii.eqb bslash bslash) with true. cbv iota. rewrite D. cbn [repeat app Nat.even]. destruct s2; [reflexivity|].
          now rewrite andb_false_r. }
        rewrite X. assert (N : d <> bslash) by (intros ->; discriminate). destruct (Ascii.eqb d colon) eqn:E.
        -- apply Ascii.eqb_eq in E as ->. destruct (complete_pair p colon H) as (H' & E); [now right|].
           rewrite IH; [|unfold Wf_nat.ltof; cbn; lia|assumption]. rewrite E, between_2. reflexivity.
        -- assert (N2 : d <> colon) by (intros ->; discriminate). destruct (complete_single p d H N N2) as (H' & E').
           rewrite IH; [|unfold Wf_nat.ltof; cbn; lia|assumption]. rewrite E', between_2, D, E. cbn [orb]. rewrite andb_false_r.
           change (Ascii.eqb bslash colon) with false. cbn [andb]. rewrite between_other by assumption. now rewrite <- !app_assoc.
  - assert (N : c <> bslash) by (intros ->; discriminate). destruct (complete_other p c H N) as (H' & E).
    destruct s1 as [|d s2].
    + cbn [raws]. rewrite C. cbn [repeat app]. cbn [raws map between]. rewrite app_nil_r. now rewrite E.
    + rewrite between_2. rewrite C. cbn [andb]. cbn [raws]. rewrite C. cbn [Nat.even repeat app]. rewrite andb_true_r.
      destruct (Ascii.eqb c colon && Ascii.eqb d colon).
      * cbn [map]. rewrite app_nil_r. f_equal. rewrite IH; [reflexivity|unfold Wf_nat.ltof; cbn; lia|intros x; reflexivity].
      * change (map (fun r : bytes => (r, unq r)) (raws (p ++ [c]) 0 (d :: s2)) = between (p ++ [c]) (unq p ++ [c]) (d :: s2)).
        rewrite IH; [|unfold Wf_nat.ltof; cbn; lia|assumption]. now rewrite E.
Qed.

Lemma unq_nil r : unq r = [] <-> r = [].
Proof.
  split; [|now intros ->]. destruct r as [|c [|d r]]; [reflexivity|discriminate|]. rewrite unq_2.
  destruct (Ascii.eqb c bslash && (Ascii.eqb d bslash || Ascii.eqb d colon)); discriminate.
Qed.
Lemma unc_network r : is_unc_path r = network r.
Proof.
  unfold is_unc_path, network. destruct r as [|c [|d [|e r]]]; cbn [starts_with length]; try reflexivity.
  - now rewrite !andb_false_r.
  - cbn. now rewrite andb_false_r.
  - change ((2 <? S (S (S (length r))))%nat) with true. rewrite andb_true_r. rewrite (Ascii.eqb_sym bslash c), (Ascii.eqb_sym bslash d), (Ascii.eqb_sym bslash e).
    destruct (Ascii.eqb c bslash), (Ascii.eqb d bslash), (Ascii.eqb e bslash); reflexivity.
Qed.
Lemma to_path_of r : to_path r = path_of (r, unq r).
Proof. unfold to_path, path_of, slashes. cbn [fst snd]. now rewrite unc_network, unquote_part_unq. Qed.

Lemma raws_nonempty s acc run : raws acc run s <> [].
Proof.
  revert acc run. induction s as [|c s IH]; intros acc run; [discriminate|]. cbn [raws]. destruct (Ascii.eqb c bslash); [apply IH|].
  destruct s as [|d s]; [discriminate|]. destruct (Ascii.eqb c colon && Ascii.eqb d colon && Nat.even run); [discriminate|apply IH].
Qed.

Lemma parse_location_meaning s : tidy s -> parse_location s = meaning (between [] [] s).
Proof.
  intros T. change (between [] [] s) with (between [] (unq []) s). rewrite <- (raws_between s []) by (intros x; reflexivity).
  unfold parse_location. change (stitch (re_split [] 0 s)) with (snd (stitch_go (re_split [] 0 s))).
  rewrite (stitch_raws s [] 0 T (or_introl eq_refl)). cbn [snd]. pose proof (raws_nonempty s [] 0) as NE.
  destruct (raws [] 0 s) as [|h [|p [|x l]]]; [contradiction| | |].
  - cbn [map meaning]. now rewrite to_path_of.
  - cbn [map meaning snd]. rewrite unquote_part_unq, to_path_of.
    assert (Uh := unq_nil h). assert (Up := unq_nil p).
    destruct h as [|c h]; [reflexivity|]. destruct (unq (c :: h)) as [|c' h']; [destruct Uh as (Uh & _); now specialize (Uh eq_refl)|].
    destruct p as [|d p]; [reflexivity|]. destruct (unq (d :: p)) as [|d' p'] eqn:V; [destruct Up as (Up & _); now specialize (Up eq_refl)|]. reflexivity.
  - reflexivity.
Qed.

(** ** quoting *)
Lemma between_quote s : forall raw cur rest,
  between raw cur (quote s ++ rest) = between (raw ++ quote s) (cur ++ s) rest.
Proof.
  induction s as [|c s IH]; intros raw cur rest; [cbn [quote flat_map app]; now rewrite !app_nil_r|].
  cbn [quote flat_map]. change (flat_map _ s) with (quote s). destruct (Ascii.eqb c bslash || Ascii.eqb c colon) eqn:E.
  - cbn [app]. rewrite between_2. change (Ascii.eqb bslash bslash) with true. cbn [andb]. rewrite E.
    rewrite IH. now rewrite <- !app_assoc.
  - apply orb_false_iff in E as (E1 & E2). cbn [app]. rewrite between_other by (now apply Ascii.eqb_neq).
    rewrite IH. now rewrite <- !app_assoc.
Qed.

Lemma quote_cons c s : quote (c :: s) = (if Ascii.eqb c bslash || Ascii.eqb c colon then [bslash; c] else [c]) ++ quote s.
Proof. reflexivity. Qed.
(** a case for each kind of byte *)
Lemma quote_case c s : (c = bslash /\ quote (c :: s) = bslash :: bslash :: quote s)
  \/ (c = colon /\ quote (c :: s) = bslash :: colon :: quote s)
  \/ (c <> bslash /\ c <> colon /\ quote (c :: s) = c :: quote s).
Proof.
  rewrite quote_cons. destruct (Ascii.eqb c bslash) eqn:B; [apply eqb_bs in B; subst; now left|].
  destruct (Ascii.eqb c colon) eqn:C; [apply Ascii.eqb_eq in C; subst; right; now left|].
  right; right. split; [now apply Ascii.eqb_neq|]. split; [now apply Ascii.eqb_neq|reflexivity].
Qed.
Lemma quote_colons s : forall a b, quote s <> a ++ colon :: colon :: b.
Proof.
  induction s as [|c s IH]; intros a b H; [now destruct a|].
  destruct (quote_case c s) as [(-> & E)|[(-> & E)|(N1 & N2 & E)]]; rewrite E in H.
  - destruct a as [|x [|y a]]; [discriminate|discriminate|]. injection H as _ _ H. now apply IH in H.
  - destruct a as [|x [|y a]]; [discriminate| |].
    + injection H as _ H. destruct s as [|c s]; [discriminate|].
      destruct (quote_case c s) as [(-> & E')|[(-> & E')|(M1 & M2 & E')]]; rewrite E' in H; injection H as H _; congruence.
    + injection H as _ _ H. now apply IH in H.
  - destruct a as [|x a]; [injection H as -> _; contradiction|]. injection H as _ H. now apply IH in H.
Qed.
Lemma quote_no_bs_bs s : ~ In bslash s -> forall a b, quote s <> a ++ bslash :: bslash :: b.
Proof.
  induction s as [|c s IH]; intros N a b H; [now destruct a|]. assert (N' : ~ In bslash s) by (intros X; apply N; now right).
  destruct (quote_case c s) as [(-> & E)|[(-> & E)|(N1 & N2 & E)]]; rewrite E in H.
  - apply N. now left.
  - destruct a as [|x [|y a]]; [discriminate|discriminate|]. injection H as _ _ H. now apply IH in H.
  - destruct a as [|x a]; [injection H as -> _; contradiction|]. injection H as _ H. now apply IH in H.
Qed.
(** where a double colon can be after a quoted string and the separator *)
Lemma colons_where h : forall Q a Y, quote h ++ colon :: colon :: Q = a ++ colon :: colon :: Y ->
  Y = Q \/ Y = colon :: Q \/ exists a', Q = a' ++ colon :: colon :: Y \/ colon :: Q = a' ++ colon :: colon :: Y.
Proof.
  induction h as [|c h IH]; intros Q a Y H.
  - destruct a as [|x [|y a]]; [injection H as H; now left|injection H as _ H; right; right; exists []; right; now rewrite H|].
    injection H as _ _ H. right; right. exists a. now left.
  - destruct (quote_case c h) as [(-> & E)|[(-> & E)|(N1 & N2 & E)]]; rewrite E in H.
    + destruct a as [|x [|y a]]; [discriminate|discriminate|]. injection H as _ _ H. now apply IH in H.
    + destruct a as [|x [|y a]]; [discriminate| |].
      * injection H as _ H. destruct h as [|c h].
        -- cbn [quote flat_map app] in H. injection H as H. right; left. now symmetry.
        -- destruct (quote_case c h) as [(-> & E')|[(-> & E')|(M1 & M2 & E')]]; rewrite E' in H; injection H as H _; congruence.
      * injection H as _ _ H. now apply IH in H.
    + destruct a as [|x a]; [injection H as -> _; contradiction|]. injection H as _ H. now apply IH in H.
Qed.
Lemma run_of_quote m : forall h Q b, quote h ++ colon :: colon :: Q = repeat bslash (2 * m) ++ colon :: colon :: b -> h = repeat bslash m.
Proof.
  induction m as [|m IH]; intros h Q b H.
  - destruct h as [|c h]; [reflexivity|].
    destruct (quote_case c h) as [(-> & E)|[(-> & E)|(N1 & N2 & E)]]; rewrite E in H; injection H as H _; congruence.
  - replace (2 * S m)%nat with (S (S (2 * m))) in H by lia. destruct h as [|c h]; [discriminate|].
    destruct (quote_case c h) as [(-> & E)|[(-> & E)|(N1 & N2 & E)]]; rewrite E in H.
    + injection H as H. apply IH in H. now subst.
    + discriminate.
    + injection H as -> _. contradiction.
Qed.
Lemma run_before_separator n b p : ~ In bslash p -> forall h a, (forall a', a <> a' ++ [bslash]) ->
  quote h ++ colon :: colon :: quote p = a ++ repeat bslash (4 + 2 * n) ++ colon :: colon :: b -> exists h', h = h' ++ [bslash; bslash].
Proof.
  intros Np. induction h as [|c h IH]; intros a Ha H.
  - destruct a as [|x [|y a]]; [discriminate|discriminate|]. injection H as _ _ H. now apply quote_no_bs_bs in H.
  - destruct (quote_case c h) as [(-> & E)|[(-> & E)|(N1 & N2 & E)]]; rewrite E in H.
    + destruct a as [|x [|y a]].
      * change (quote (bslash :: h) ++ colon :: colon :: quote p = repeat bslash (4 + 2 * n) ++ colon :: colon :: b) in H.
        replace (4 + 2 * n)%nat with (2 * (S (S n)))%nat in H by lia. apply run_of_quote in H. rewrite H.
        exists (repeat bslash n). cbn [repeat]. clear. induction n as [|n IH]; [reflexivity|]. cbn [repeat app]. now rewrite <- IH.
      * injection H as <- _. now destruct (Ha []).
      * injection H as <- <- H. apply IH in H as (h' & ->); [now exists (bslash :: h')|]. intros a' ->. now apply (Ha (bslash :: bslash :: a')).
    + destruct a as [|x [|y a]]; [discriminate|injection H as <- _; now destruct (Ha [])|]. injection H as <- <- H.
      apply IH in H as (h' & ->); [now exists (colon :: h')|]. intros a' ->. now apply (Ha (bslash :: colon :: a')).
    + destruct a as [|x a]; [injection H as -> _; contradiction|]. injection H as <- H.
      apply IH in H as (h' & ->); [now exists (c :: h')|]. intros a' ->. now apply (Ha (c :: a')).
Qed.
Lemma run_then_nl k : forall h Q b, quote h ++ colon :: colon :: Q = repeat bslash k ++ nl :: b ->
  exists m h', h = repeat bslash m ++ nl :: h' /\ (k = 2 * m)%nat.
Proof.
  induction k as [k IH] using lt_wf_ind. intros h Q b H. destruct k as [|[|k]].
  - destruct h as [|c h]; [discriminate|].
    destruct (quote_case c h) as [(-> & E)|[(-> & E)|(N1 & N2 & E)]]; rewrite E in H; try discriminate.
    injection H as -> _. now exists O, h.
  - destruct h as [|c h]; [discriminate|].
    destruct (quote_case c h) as [(-> & E)|[(-> & E)|(N1 & N2 & E)]]; rewrite E in H; try discriminate.
    injection H as -> _. contradiction.
  - destruct h as [|c h]; [discriminate|].
    destruct (quote_case c h) as [(-> & E)|[(-> & E)|(N1 & N2 & E)]]; rewrite E in H; try discriminate.
    + injection H as H. apply IH in H as (m & h' & -> & ->); [|lia]. exists (S m), h'. split; [reflexivity|lia].
    + injection H as -> _. contradiction.
Qed.

Lemma tidy_quoted h p : p <> [] -> ~ In bslash p -> (forall h', h <> h' ++ [bslash; bslash]) ->
  (forall n b, h <> repeat bslash (S n) ++ nl :: b) -> tidy (quote h ++ [colon; colon] ++ quote p).
Proof.
  intros Hp Np Hh Hn.
  assert (After : forall Y a, quote h ++ [colon; colon] ++ quote p = a ++ Y -> begins_part a -> a <> [] -> Y = quote p \/ Y = colon :: quote p).
  { intros Y a H [->|(a' & ->)] N; [contradiction|]. cbn [app] in H. rewrite <- app_assoc in H. cbn [app] in H.
    apply colons_where in H as [->|[->|(z & [H|H])]]; [now left|now right| |].
    - now apply quote_colons in H.
    - destruct z as [|c z]; [|injection H as _ H; now apply quote_colons in H]. injection H as H. exfalso.
      destruct p as [|c p]; [contradiction|]. destruct (quote_case c p) as [(-> & E)|[(-> & E)|(N1 & N2 & E)]]; rewrite E in H; injection H as H _; congruence. }
  assert (Qp : forall n x, quote p <> bslash :: repeat bslash n ++ nl :: x).
  { intros n x H. destruct p as [|c p]; [discriminate|]. destruct (quote_case c p) as [(-> & E)|[(-> & E)|(N1 & N2 & E)]]; rewrite E in H.
    - apply Np. now left.
    - injection H as H. destruct n; discriminate.
    - injection H as -> _. contradiction. }
  assert (Qp' : forall n, quote p <> bslash :: repeat bslash n).
  { intros n H. destruct p as [|c p]; [discriminate|]. destruct (quote_case c p) as [(-> & E)|[(-> & E)|(N1 & N2 & E)]]; rewrite E in H.
    - apply Np. now left.
    - injection H as H. destruct n; discriminate.
    - injection H as -> _. contradiction. }
  split; [|split].
  - intros a b n Ha H. cbn [app] in H. apply run_before_separator in H as (h' & ->); [now apply (Hh h')|assumption|assumption].
  - intros a n Ha H. destruct a as [|x a].
    + cbn [app] in H. assert (X : In colon (repeat bslash (S n))) by (rewrite <- H; apply in_or_app; right; now left).
      apply repeat_spec in X. discriminate.
    + destruct (After _ _ H Ha) as [X|X]; [discriminate| |discriminate]. symmetry in X. now apply Qp' in X.
  - intros a b n Ha H. destruct a as [|x a].
    + cbn [app] in H. change (quote h ++ colon :: colon :: quote p = repeat bslash (S n) ++ nl :: b) in H.
      apply run_then_nl in H as (m & h' & -> & E). destruct m as [|m]; [lia|]. now apply (Hn m h').
    + destruct (After _ _ H Ha) as [X|X]; [discriminate| |discriminate]. symmetry in X. now apply Qp in X.
Qed.
