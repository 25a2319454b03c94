(** * Lemmas: first sessions in a directory which isn't empty *)
From Coq Require Import List ZArith Bool Ascii Lia Sorting.Permutation Sorting.Sorted.
From Verif Require Import Base L_Base M_Core L_Core P_Core M_Crash L_Crash M_Iter L_Iter L_Tree L_Lookup P_Iter
  M_MetaMgr L_MetaMgr L_MetaDir P_MetaMgr M_Global L_Global.
Import List ListNotations.
Local Open Scope Z_scope.

Section F.
Context {attr : Type}.
Variable delta : bytes -> bytes -> bytes.
Variable patch : bytes -> bytes -> option bytes.
Variable sha1 : attr -> bytes -> option bytes.
Variable same : attr -> attr -> bool.
Variable loose : attr -> attr -> bool.
Variable deq : meta attr -> meta attr -> bool.
Variable P : idx -> bytes -> Prop.
Hypothesis occ_nil : forall p, P p [].
Variable fa : attr -> attr.
Hypothesis fa_loose : forall a, loose (fa a) a = true.
Hypothesis fa_hash : forall a c, sha1 (fa a) c = None.

Notation node := (node attr).
Notation PInv := (PInv patch sha1 loose P).
Notation GInv := (GInv patch sha1 loose deq P).
Notation MOk := (MOk loose).
Notation meta_of := (meta_of sha1).
Notation recorded := (recorded sha1 same).
Notation repo := (@repo attr).

Lemma pinv_single p t (F : idx -> node) m : okn (P p) (F p) -> holds (F p) m -> (forall d a, F p = Spec d a -> is_reg m = false) ->
  MOk [(t, F)] p m -> PInv [(t, F)] p (m, []).
Proof using occ_nil.
  intros Hk Hh Hs HM. exists []. cbn [fst snd].
  assert (HI : forall m', holds (F p) m' -> Inv patch sha1 (P p) [(t, F p)] (mk_ps m' [] [(t, meta_of (F p))])).
  { intros m' Hh'. constructor; cbn; auto.
    - repeat constructor.
    - constructor.
    - intros t' c a [E|[]]. injection E as -> E. rewrite E in Hh'. cbn in Hh'. destruct Hh' as [a' ->]. reflexivity.
    - eapply holds_okn; eauto. }
  split; [constructor|]. split; [exact (HI m Hh)|]. split; [|split; [|exact HM]].
  - cbn. destruct (F p) eqn:E; auto. eapply Hs; eauto.
  - split; [constructor|]. intros r1 t0 f0 r0 E. destruct r1 as [|x [|y r1]]; try discriminate. injection E as <- <- <-.
    cbn. apply HI. destruct (F p); cbn; eauto.
Qed.

Lemma attr_found n : as_found fa n = match n with Absent => Absent | Reg c a => Reg c (fa a) | Dir a => Dir (fa a) | Spec d a => Spec d (fa a) end.
Proof using. now destruct n. Qed.

(** one path in a first session *)
Lemma first_path p t F m s o : okn (P p) m -> okn (P p) s -> good o -> (forall a, o <> OSpecialFail a) ->
  F p = recorded (as_found fa m) s o ->
  PInv [(t, F)] p (fst (update delta sha1 same None s o (found_ps (meta_of (as_found fa m)) (m, [])))) /\
  snd (update delta sha1 same None s o (found_ps (meta_of (as_found fa m)) (m, []))) = meta_of (F p).
Proof using occ_nil fa_loose fa_hash.
  intros Hm Hs Hg Ho HF. unfold update, recorded in *. unfold cur_meta, found_ps. cbn [metas mirror incs fst snd].
  assert (Hh : hash_unchanged sha1 s (meta_of (as_found fa m)) = false).
  { destruct s; try reflexivity. rewrite attr_found. destruct m; try reflexivity. cbn. now rewrite fa_hash. }
  assert (Hv : forall G : idx -> node, G p = as_found fa m -> PInv [(t, G)] p (m, [])).
  { intros G E. rewrite attr_found in E. apply pinv_single; rewrite ?E.
    - destruct m; auto.
    - destruct m; cbn; eauto.
    - destruct m; try discriminate. reflexivity.
    - unfold L_Global.MOk. cbn [ghead]. rewrite E. destruct m; cbn; eauto. }
  assert (Hn : forall G : idx -> node, okn (P p) (G p) -> PInv [(t, G)] p (G p, [])).
  { intros G Hk. apply pinv_single; auto.
    - destruct (G p); cbn; eauto.
    - intros d a ->. reflexivity.
    - unfold L_Global.MOk. cbn [ghead]. destruct (G p); cbn; eauto. }
  rewrite Hh. destruct (meta_same same s (meta_of (as_found fa m))) eqn:Em.
  - destruct o; try (cbn [fst snd]; split; [apply Hv; exact HF|now rewrite HF]).
    destruct s as [|c a|a|d a]; try (cbn [fst snd]; split; [apply Hv; exact HF|now rewrite HF]).
    cbn [fst snd add_inc]. split; [|now rewrite HF].
    rewrite attr_found in Em. destruct m as [| |b|]; try discriminate.
    apply pinv_single; rewrite ?HF; cbn; eauto; try discriminate. unfold L_Global.MOk. cbn. now rewrite HF.
  - destruct o; try (destruct Hg; fail); try (exfalso; eapply Ho; reflexivity);
      try (cbn [fst snd add_inc]; rewrite <- HF; split; [apply Hn; rewrite HF; exact Hs|reflexivity]).
    + cbn [fst snd]. split; [apply Hv; exact HF|now rewrite HF].
    + destruct s as [|c a|a|d a]; cbn [fst snd add_inc]; rewrite <- HF; (split; [apply Hn; rewrite HF; exact I|rewrite ?HF; reflexivity]).
Qed.

(** the listing of the mirror *)
Lemma found_find (r : repo) found p : scan_of r found ->
  find_md p (found_listing sha1 fa found r) = meta_of (as_found fa (fst (r_path r p))).
Proof using.
  intros [_ Hf]. unfold find_md, found_listing.
  destruct (find (fun x => idx_eqb (fst x) p) (map (fun p0 => (p0, meta_of (as_found fa (fst (r_path r p0))))) found)) as [x|] eqn:E.
  - apply find_some in E as [H E]. apply in_map_iff in H as (q & <- & _). cbn in *.
    apply idx_eqb_eq in E. now subst q.
  - destruct (fst (r_path r p)) eqn:Ea; [reflexivity| | |];
      (assert (Hin : In p found) by (apply Hf; rewrite Ea; discriminate);
       pose proof (find_none _ _ E (p, meta_of (as_found fa (fst (r_path r p))))) as Hn; cbn in Hn;
       rewrite (proj2 (idx_eqb_eq p p) eq_refl) in Hn; exfalso; discriminate Hn;
       apply in_map_iff; exists p; auto).
Qed.

(** *** attempts *)
Definition step_mirror (y : @try attr) (p : idx) (m : node) : node :=
  let ps := found_ps (meta_of (as_found fa m)) (m, []) in
  mirror (crash 0 (y_kp y p) (first_prog delta sha1 same (node_at (y_src y) p) (y_out y p) (y_noise y p) ps) ps).
Definition tried (l : list (@try attr)) (p : idx) (m : node) : node :=
  fold_left (fun m y => step_mirror y p m) l m.

Lemma mirror_ops_incs t1 (l : list (pop attr)) : Forall (fun x => match x with SetMirror _ => True | _ => False end) l ->
  forall ps, incs (run_pops t1 l ps) = incs ps.
Proof using.
  induction 1 as [|x l Hx Hl IH]; intros ps; cbn; [reflexivity|]. rewrite IH. destruct x; try (destruct Hx; fail). reflexivity.
Qed.
Lemma forall_firstn {A} (Q : A -> Prop) n l : Forall Q l -> Forall Q (firstn n l).
Proof using. intros H. revert n. induction H; intros [|n]; cbn; auto. Qed.

(** [ok p m]: the mirror file has the content of a version *)
Section Ok.
Variable ok : idx -> node -> Prop.
Hypothesis ok_other : forall p n, is_reg n = false -> ok p n.
Hypothesis ok_empty : forall p a, ok p (Reg [] a).

Lemma set_ok p (l : list (pop attr)) k : Forall (fun x => match x with SetMirror n => ok p n | _ => True end) l ->
  forall ps, ok p (mirror ps) -> ok p (mirror (crash 0 k l ps)).
Proof using.
  intros H ps Hp. unfold crash. apply (forall_firstn _ k) in H. revert ps Hp.
  induction H as [|x l' Hx Hl IH]; intros ps Hp; cbn; [exact Hp|]. apply IH. destruct x; cbn; auto.
Qed.

Lemma attr_ok p n z a : is_reg n = false -> Forall (fun x => match x with SetMirror n => ok p n | _ => True end) (attr_writes n z a).
Proof using ok_other.
  intros H. unfold attr_writes. apply Forall_app. split; [|constructor; [|constructor]].
  - apply Forall_forall. intros x Hx. apply in_map_iff in Hx as (b & <- & _). apply ok_other. now destruct n.
  - apply ok_other. now destruct n.
Qed.
Lemma inc_ok p z (i : inc attr) : Forall (fun x => match x with SetMirror n => ok p n | _ => True end) (inc_writes z i).
Proof using.
  unfold inc_writes. apply Forall_app. split; [|repeat constructor].
  apply Forall_forall. intros x Hx. apply in_map_iff in Hx as (b & <- & _). exact I.
Qed.
Lemma replace_ok p z m new : ok p new -> Forall (fun x => match x with SetMirror n => ok p n | _ => True end) (replace_mirror z m new).
Proof using ok_other.
  intros H. assert (Ha : ok p Absent) by now apply ok_other. unfold replace_mirror.
  destruct new as [|c a|a|d a].
  1: constructor; [exact H|constructor].
  1,3: (destruct (is_dir m); repeat (constructor; [assumption|]); constructor).
  apply Forall_app. split; [|now apply attr_ok]. destruct (is_dir m); [constructor|].
  destruct m; cbn; repeat (constructor; [now apply ok_other|]); constructor.
Qed.

Lemma step_ok y p m : ok p m -> ok p (node_at (y_src y) p) -> ok p (step_mirror y p m).
Proof using ok_other ok_empty fa_hash.
  intros Hm Hs. unfold step_mirror. apply set_ok; [|exact Hm]. unfold first_prog.
  set (s := node_at (y_src y) p) in *. set (o := y_out y p). set (z := y_noise y p).
  assert (HF : forall l, Forall (fun x => match x with SetMirror n => ok p n | _ => True end) l ->
    Forall (fun x => match x with SetMirror n => ok p n | _ => True end)
      (filter (fun x : pop attr => match x with SetMirror _ => true | _ => false end) l)).
  { clear. induction 1 as [|x l Hx Hl IH]; cbn; [constructor|]. destruct x; cbn; auto. }
  apply HF. clear HF. unfold session_prog. cbn [cur_meta metas mirror found_ps fst snd].
  assert (Hh : hash_unchanged sha1 s (meta_of (as_found fa m)) = false).
  { destruct s; try reflexivity. rewrite attr_found. destruct m; try reflexivity. cbn. now rewrite fa_hash. }
  rewrite Hh.
  assert (Hup : forall new, ok p new -> Forall (fun x => match x with SetMirror n => ok p n | _ => True end)
     (inc_writes z (make_increment delta new m) ++ replace_mirror z m new)).
  { intros new Hn. apply Forall_app. split; [apply inc_ok|now apply replace_ok]. }
  destruct (meta_same same s (meta_of (as_found fa m))) eqn:Em.
  - destruct o; try constructor. destruct s; try constructor. rewrite attr_found in Em. destruct m; try discriminate.
    apply Forall_app. split; [apply inc_ok|]. now apply attr_ok.
  - destruct o; try (now apply Hup).
    + destruct (is_dir m) eqn:Ed; [|constructor]. destruct (is_dir s); cbn; [constructor|].
      constructor; [now apply ok_other|]. constructor; [exact Hm|constructor].
    + destruct s; apply Hup; auto.
    + destruct s; apply Hup; auto.
    + destruct part; [apply inc_ok|constructor].
    + apply inc_ok.
Qed.
Lemma tried_ok l p : (forall y, In y l -> ok p (node_at (y_src y) p)) -> forall m, ok p m -> ok p (tried l p m).
Proof using ok_other ok_empty fa_hash.
  unfold tried. induction l as [|y l IH]; intros Hl m Hm; cbn; [exact Hm|].
  apply IH; [intros x Hx; apply Hl; now right|]. apply step_ok; auto. apply Hl. now left.
Qed.
End Ok.

Definition plain (r : repo) : Prop := clean_initial (r_data r) = empty_dd /\ forall p, snd (r_path r p) = [].

Lemma first_start t d : backup_start t false false (@empty_dd d) = StBackup None <-> 0 < t.
Proof using. unfold backup_start. cbn. destruct (Z.leb_spec t 0); split; (discriminate || lia || auto). Qed.

Lemma first_crash_ok r found y rc : plain r -> scan_of r found -> first_crash delta sha1 same deq fa found y r = Some rc ->
  plain rc /\ forall p, fst (r_path rc p) = step_mirror y p (fst (r_path r p)).
Proof using.
  intros [Hd Hp] Hsc E. unfold first_crash in E. rewrite Hd in E.
  destruct (backup_start _ _ _ _) as [[?|]| |]; try discriminate.
  destruct (session_dops _ _ _ _ _ _) as [ops|] eqn:Eo; [|discriminate].
  destruct (Nat.ltb_spec (y_kd y) (length ops)); [|discriminate]. injection E as <-. split; [split|].
  - cbn [r_data]. eapply C06_failed_first_session_removed; eauto.
  - intros p. cbn [r_path files_of snd]. unfold crash. rewrite mirror_ops_incs; [exact (Hp p)|].
    apply forall_firstn. unfold first_prog. apply Forall_forall. intros x Hx. apply filter_In in Hx as [_ Hx]. now destruct x.
  - intros p. cbn [r_path files_of fst]. rewrite found_find by assumption. unfold step_mirror.
    assert (E : found_ps (meta_of (as_found fa (fst (r_path r p)))) (r_path r p) =
                found_ps (meta_of (as_found fa (fst (r_path r p)))) (fst (r_path r p), [])).
    { unfold found_ps. cbn. now rewrite Hp. }
    now rewrite E.
Qed.

Lemma first_crashes_ok l : forall r rc, plain r -> first_crashes delta sha1 same deq fa l r rc ->
  plain rc /\ forall p, fst (r_path rc p) = tried l p (fst (r_path r p)).
Proof using.
  induction l as [|y l IH]; intros r rc Hp; cbn [first_crashes].
  - intros ->. auto.
  - intros (found & r1 & Hs & Hc & Hr). destruct (first_crash_ok _ _ _ _ Hp Hs Hc) as [Hp1 E1].
    destruct (IH _ _ Hp1 Hr) as [Hp2 E2]. split; [exact Hp2|]. intros p. rewrite E2, E1. reflexivity.
Qed.

Lemma plain_dir_plain m0 : plain (plain_dir m0).
Proof using. split; reflexivity. Qed.

(** *** the session which completes *)
Definition firstf (m : idx -> node) (src : @tree attr) (o : idx -> outcome attr) (p : idx) : node :=
  recorded (as_found fa (m p)) (node_at src p) (o p).

Lemma found_sorted r found : scan_of r found -> sorted_by fst (found_listing sha1 fa found r).
Proof using.
  intros [Hs _]. unfold found_listing, sorted_by. induction Hs as [|p l Hl IH HF]; cbn; [constructor|].
  constructor; [exact IH|]. apply Forall_forall. intros x Hx. apply in_map_iff in Hx as (q & <- & Hq).
  rewrite Forall_forall in HF. exact (HF q Hq).
Qed.

Lemma gfirst_ginv r found t src o zd r' : plain r -> scan_of r found -> listing fst src ->
  (forall p, okn (P p) (fst (r_path r p))) -> (forall p, okn (P p) (node_at src p)) ->
  (forall p, good (o p) /\ forall a, o p <> OSpecialFail a) ->
  gfirst delta sha1 same deq fa found t src o zd r = Some r' ->
  GInv [(t, firstf (fun p => fst (r_path r p)) src o)] r'.
Proof using occ_nil fa_loose fa_hash.
  intros [Hd Hp] Hsc Hsrc Hm Hk Ho E. apply listing_sorted in Hsrc. unfold gfirst in E. rewrite Hd in E.
  destruct (backup_start _ _ _ _) as [[?|]| |] eqn:Est; try discriminate. apply first_start in Est.
  destruct (session_dops _ _ _ _ _ _) as [ops|] eqn:Eo; [|discriminate]. injection E as <-.
  set (F := firstf (fun p => fst (r_path r p)) src o).
  assert (HPS : forall p, PInv [(t, F)] p (fst (update delta sha1 same None (node_at src p) (o p)
             (found_ps (find_md p (found_listing sha1 fa found r)) (r_path r p)))) /\
          snd (update delta sha1 same None (node_at src p) (o p)
             (found_ps (find_md p (found_listing sha1 fa found r)) (r_path r p))) = meta_of (F p)).
  { intros p. rewrite found_find by assumption. destruct (Ho p).
    replace (r_path r p) with (fst (r_path r p), @nil (Z * inc attr)) at 2 4 by (rewrite <- (Hp p); now destruct (r_path r p)).
    apply first_path; auto. }
  split; [|intros p; apply HPS]. cbn [r_data].
  eexists [(t, _)]. split.
  - eapply R_first; [exact Est| |exact Eo]. apply listing_sorted, with_sorted; [assumption|now apply found_sorted].
  - repeat constructor. intros p. cbn [fst snd]. rewrite with_find; [apply HPS|assumption|now apply found_sorted|].
    intros f o'. unfold update, cur_meta, found_ps. cbn. now destruct o'.
Qed.

(** *** the files of the mirror can be listed *)
Definition finite_files (r : repo) : Prop := exists L, forall p, fst (r_path r p) <> Absent -> In p L.

Lemma insert_sorted (p : idx) l : StronglySorted idx_lt l ->
  exists l', StronglySorted idx_lt l' /\ forall q, In q l' <-> q = p \/ In q l.
Proof using.
  induction 1 as [|x l Hl (l' & Hs & Hin) HF].
  - exists [p]. split; [repeat constructor|]. cbn. intuition.
  - rewrite Forall_forall in HF. destruct (idx_cmp p x) eqn:E.
    + apply idx_cmp_eq in E. subst x. exists (p :: l). split; [constructor; [exact Hl|now apply Forall_forall]|]. cbn. intuition.
    + exists (p :: x :: l). split; [|cbn; intuition]. constructor; [constructor; [exact Hl|now apply Forall_forall]|].
      constructor; [exact E|]. apply Forall_forall. intros q Hq. eapply idx_lt_trans; [exact E|]. now apply HF.
    + apply idx_cmp_gt in E. exists (x :: l'). split; [|intros q; cbn; rewrite Hin; intuition].
      constructor; [exact Hs|]. apply Forall_forall. intros q Hq. apply Hin in Hq as [->|Hq]; [exact E|now apply HF].
Qed.
Lemma sorted_exists (Q : idx -> bool) L : exists l, StronglySorted idx_lt l /\ forall q, In q l <-> In q L /\ Q q = true.
Proof using.
  induction L as [|p L (l & Hs & Hin)]; [exists []; split; [constructor|]; cbn; intuition|].
  destruct (Q p) eqn:E.
  - destruct (insert_sorted p l Hs) as (l' & Hs' & Hin'). exists l'. split; [exact Hs'|]. intros q. rewrite Hin', Hin. cbn.
    split; [intros [->|[A B]]|intros [[->|A] B]]; auto.
  - exists l. split; [exact Hs|]. intros q. rewrite Hin. cbn. split; [intros [A B]; auto|intros [[->|A] B]; [congruence|auto]].
Qed.
Lemma scan_exists (r : repo) : finite_files r -> exists found, scan_of r found.
Proof using.
  intros [L HL]. destruct (sorted_exists (fun p => match fst (r_path r p) with Absent => false | _ => true end) L) as (l & Hs & Hin).
  exists l. split; [exact Hs|]. intros p. rewrite Hin. specialize (HL p). destruct (fst (r_path r p)); (split; [intros [A B]; (discriminate || congruence)|intros Hn; split; [now apply HL|congruence]]).
Qed.

Lemma node_at_in (l : @tree attr) p : node_at l p <> Absent -> In p (map fst l).
Proof using.
  unfold node_at. destruct (find _ l) as [x|] eqn:E; [|congruence]. intros _. apply find_some in E as [H E].
  apply idx_eqb_eq in E. subst p. now apply in_map.
Qed.
Lemma step_absent y p : node_at (y_src y) p = Absent -> step_mirror y p Absent = Absent.
Proof using.
  intros E. unfold step_mirror, first_prog, session_prog. rewrite E. cbn.
  destruct (y_out y p); cbn; unfold crash; destruct (y_kp y p); reflexivity.
Qed.
Lemma first_crash_finite r found y rc : plain r -> scan_of r found -> first_crash delta sha1 same deq fa found y r = Some rc ->
  finite_files rc.
Proof using.
  intros Hp Hs Hc. destruct (first_crash_ok _ _ _ _ Hp Hs Hc) as [_ E]. exists (found ++ map fst (y_src y)).
  intros p Hn. apply in_app_iff. rewrite E in Hn.
  destruct (fst (r_path r p)) eqn:Em; [right|left; apply Hs; rewrite Em; discriminate..].
  destruct (node_at (y_src y) p) eqn:En; [now rewrite step_absent in Hn|apply node_at_in; rewrite En; discriminate..].
Qed.
Lemma first_crashes_finite l : forall r rc, plain r -> finite_files r -> first_crashes delta sha1 same deq fa l r rc -> finite_files rc.
Proof using.
  induction l as [|y l IH]; intros r rc Hp Hf; cbn [first_crashes]; [now intros ->|].
  intros (found & r1 & Hs & Hc & Hr). eapply IH; [|eapply first_crash_finite; eauto|exact Hr].
  now destruct (first_crash_ok _ _ _ _ Hp Hs Hc).
Qed.
Lemma plain_dir_finite (m0 : @tree attr) : finite_files (plain_dir m0).
Proof using. exists (map fst m0). intros p. cbn. apply node_at_in. Qed.

(** the session is accepted and completes, whatever was interrupted before *)
Lemma first_accepted r t src o zd : plain r -> finite_files r -> 0 < t ->
  exists found r', scan_of r found /\ gfirst delta sha1 same deq fa found t src o zd r = Some r'.
Proof using.
  intros [Hd _] Hf Ht. destruct (scan_exists r Hf) as [found Hs]. exists found. unfold gfirst. rewrite Hd.
  rewrite (proj2 (first_start t _) Ht). eexists. split; [exact Hs|]. reflexivity.
Qed.
(** any point of interruption is possible *)
Lemma first_crash_possible r y : plain r -> finite_files r -> 0 < y_time y -> y_kd y = O ->
  exists found rc, scan_of r found /\ first_crash delta sha1 same deq fa found y r = Some rc.
Proof using.
  intros [Hd _] Hf Ht Hk. destruct (scan_exists r Hf) as [found Hs]. exists found. unfold first_crash. rewrite Hd.
  rewrite (proj2 (first_start (y_time y) _) Ht). cbn [session_dops].
  rewrite app_length, Hk. cbn [length]. rewrite Nat.add_comm. cbn. eexists. split; [exact Hs|]. reflexivity.
Qed.
End F.
