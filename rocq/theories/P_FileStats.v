(** * C42: the tree of file statistics; C43: buffered lines *)
From Coq Require Import List ZArith Bool Ascii Lia.
From Verif Require Import Base L_Base M_Quoting M_Iter L_Iter L_Tree M_Rorp M_Meta S_Meta L_Quoting L_MetaAttr M_CCPP M_FileStats S_FileStats.
Import List ListNotations.
Local Open Scope Z_scope.

(** induction over trees *)
Definition ftree_ind2 (P : ftree -> Prop) (H : forall f cs, Forall P cs -> P (FNode f cs)) : forall t, P t :=
  fix F t := match t with FNode f cs =>
    H f cs ((fix G l : Forall P l := match l with [] => Forall_nil _ | c :: r => Forall_cons c (F c) (G r) end) cs) end.

Lemma named_kids n f cs : named n (FNode f cs) <-> f_name f = n /\ Forall (fun c => exists x, named (n ++ [x]) c) cs.
Proof.
  cbn [named]. split; intros [H1 H2]; split; auto.
  - induction cs as [|c r IH]; constructor; [apply H2|apply IH, H2].
  - induction H2; cbn; auto.
Qed.
Lemma named_root n t : named n t -> f_name (root_of t) = n.
Proof. destruct t. intros [H _]. exact H. Qed.

(** ** accumulate *)
Lemma cumulate_name t : f_name (root_of (cumulate t)) = f_name (root_of t).
Proof. destruct t. reflexivity. Qed.

Definition plus (f : fstat) (l : list fstat) : fstat := fold_left fs_add l f.
Lemma plus_name f l : f_name (plus f l) = f_name f.
Proof. unfold plus. revert f. induction l; intros f; cbn; auto. rewrite IHl. reflexivity. Qed.
Lemma plus_val (v : fstat -> Z) f l : (forall x y, v (fs_add x y) = v x + v y) -> v (plus f l) = v f + fold_right (fun x s => v x + s) 0 l.
Proof.
  intros H. unfold plus. revert f. induction l as [|x l IH]; intros f; cbn; [lia|]. rewrite IH, H. lia.
Qed.
Lemma sum_app_f (v : fstat -> Z) a b : fold_right (fun x s => v x + s) 0 (a ++ b) = fold_right (fun x s => v x + s) 0 a + fold_right (fun x s => v x + s) 0 b.
Proof. induction a; cbn; lia. Qed.
Lemma total_node v f cs : total v (FNode f cs) = v f + fold_right (fun c s => total v c + s) 0 cs.
Proof.
  unfold total. cbn [preorder fold_right]. f_equal. induction cs as [|c r IH]; cbn [flat_map fold_right]; auto.
  rewrite sum_app_f, IH. reflexivity.
Qed.
Lemma root_cumulate t : root_of (cumulate t) =
  mk_fstat (f_name (root_of t)) (total f_changed t) (total f_src t) (total f_inc t).
Proof. destruct t. reflexivity. Qed.
Lemma fstat_eq a b : f_name a = f_name b -> f_changed a = f_changed b -> f_src a = f_src b -> f_inc a = f_inc b -> a = b.
Proof. destruct a, b. cbn. intros; subst; auto. Qed.
Lemma plus_kids f cs : plus f (map (fun c => root_of (cumulate c)) cs) = root_of (cumulate (FNode f cs)).
Proof.
  rewrite root_cumulate. apply fstat_eq.
  - rewrite plus_name. reflexivity.
  - rewrite (plus_val f_changed) by reflexivity. cbn [f_changed]. rewrite total_node. f_equal.
    induction cs as [|c r IH]; cbn [map fold_right]; auto. rewrite IH, root_cumulate. reflexivity.
  - rewrite (plus_val f_src) by reflexivity. cbn [f_src]. rewrite total_node. f_equal.
    induction cs as [|c r IH]; cbn [map fold_right]; auto. rewrite IH, root_cumulate. reflexivity.
  - rewrite (plus_val f_inc) by reflexivity. cbn [f_inc]. rewrite total_node. f_equal.
    induction cs as [|c r IH]; cbn [map fold_right]; auto. rewrite IH, root_cumulate. reflexivity.
Qed.

Definition after (n : idx) (rest : list fstat) : Prop :=
  match rest with [] => True | x :: _ => f_name x = [] \/ ~ prefix n (removelast (f_name x)) end.
Lemma not_child x p : f_name x = [] \/ ~ prefix (f_name p) (removelast (f_name x)) -> is_child x p = false.
Proof.
  intros H. unfold is_child. destruct (f_name x) as [|a l] eqn:E; auto. apply idx_eqb_neq.
  destruct H as [H|H]; [discriminate|]. intros Q. apply H. rewrite Q. apply prefix_refl.
Qed.
Lemma is_child_snoc x p n a : f_name x = n ++ [a] -> f_name p = n -> is_child x p = true.
Proof.
  intros Hx Hp. unfold is_child. destruct (f_name x) as [|y l]; [destruct n; discriminate|].
  rewrite Hx, removelast_last, Hp. apply idx_eqb_refl.
Qed.
Lemma after_sub n a rest : after n rest -> after (n ++ [a]) rest.
Proof.
  unfold after. destruct rest as [|x r]; auto. intros [H|H]; auto. right. intros Q. apply H.
  eapply prefix_trans; eauto. exists [a]. reflexivity.
Qed.
Lemma preorder_cons t : exists r, preorder t = root_of t :: r.
Proof. destruct t as [f cs]. eexists; reflexivity. Qed.
Definition size (t : ftree) : nat := length (preorder t).

Lemma acc_tree t : forall n x fuel top stack rest, named (n ++ [x]) t -> f_name top = n -> after (n ++ [x]) rest ->
  acc_loop (2 * size t + fuel) (top :: stack) (preorder t ++ rest) =
  postorder (cumulate t) ++ acc_loop fuel (fs_add top (root_of (cumulate t)) :: stack) rest.
Proof.
  induction t as [f cs IH] using ftree_ind2. intros n x fuel top stack rest HN HT HA.
  apply named_kids in HN as [HF HK].
  assert (FOREST : forall fuel f' S, f_name f' = n ++ [x] ->
    acc_loop (2 * length (flat_map preorder cs) + fuel) (f' :: S) (flat_map preorder cs ++ rest) =
    flat_map postorder (map cumulate cs) ++ acc_loop fuel (plus f' (map (fun c => root_of (cumulate c)) cs) :: S) rest).
  { clear HF. induction cs as [|c r IHr]; intros fuel' f' S HF'; cbn [flat_map map]; [reflexivity|].
    inversion IH as [|? ? IHc IHr']; subst. inversion HK as [|? ? [a HNc] HKr]; subst. rewrite <- app_assoc.
    replace (2 * length (preorder c ++ flat_map preorder r) + fuel')%nat
      with (2 * size c + (2 * length (flat_map preorder r) + fuel'))%nat by (rewrite app_length; unfold size; lia).
    rewrite (IHc (f_name top ++ [x]) a); auto.
    - rewrite <- app_assoc. f_equal. rewrite (IHr IHr' HKr). { reflexivity. } { cbn. auto. }
    - destruct r as [|c2 r2]; cbn [flat_map app].
      + now apply after_sub.
      + inversion HKr as [|? ? [b HN2] _]; subst. destruct (preorder_cons c2) as [l ->]. cbn [app after].
        right. rewrite (named_root _ _ HN2), removelast_last.
        intros P. apply prefix_length in P. rewrite !app_length in P. cbn in P. lia. }
  replace (2 * size (FNode f cs) + fuel)%nat with (S (2 * length (flat_map preorder cs) + S fuel)) by (unfold size; cbn [preorder length]; lia).
  cbn [preorder app acc_loop]. rewrite (is_child_snoc f top n x HF HT).
  rewrite FOREST by auto. cbn [cumulate postorder]. rewrite <- app_assoc. f_equal.
  rewrite plus_kids. cbn [app]. set (g := root_of (cumulate (FNode f cs))).
  assert (HG : f_name g = n ++ [x]) by (unfold g; rewrite cumulate_name; auto).
  cbn [acc_loop]. destruct rest as [|y r].
  - reflexivity.
  - rewrite (not_child y g); [reflexivity|]. rewrite HG. exact HA.
Qed.

Lemma accumulate_tree t : named [] t -> accumulate (preorder t) = Some (postorder (cumulate t)).
Proof.
  destruct t as [f cs]. intros HN. apply named_kids in HN as [HF HK]. cbn [preorder accumulate]. rewrite HF. f_equal.
  assert (FOREST : forall cs, Forall (fun c => exists x, named ([] ++ [x]) c) cs -> forall fuel f', f_name f' = [] ->
    acc_loop (2 * length (flat_map preorder cs) + fuel) [f'] (flat_map preorder cs) =
    flat_map postorder (map cumulate cs) ++ acc_loop fuel [plus f' (map (fun c => root_of (cumulate c)) cs)] []).
  { clear. induction cs as [|c r IHr]; intros HK fuel' f' HF'; cbn [flat_map map]; [reflexivity|].
    inversion HK as [|? ? [a HNc] HKr]; subst.
    replace (2 * length (preorder c ++ flat_map preorder r) + fuel')%nat
      with (2 * size c + (2 * length (flat_map preorder r) + fuel'))%nat by (rewrite app_length; unfold size; lia).
    rewrite (acc_tree c [] a); auto.
    - rewrite <- app_assoc. f_equal. rewrite (IHr HKr). { reflexivity. } { cbn. auto. }
    - destruct r as [|c2 r2]; cbn [flat_map]; [exact I|].
      inversion HKr as [|? ? [b HN2] _]; subst. destruct (preorder_cons c2) as [l ->]. cbn [app after].
      right. rewrite (named_root _ _ HN2). cbn. intros P. apply prefix_length in P. cbn in P. lia. }
  replace (2 * length (f :: flat_map preorder cs))%nat with (2 * length (flat_map preorder cs) + 2)%nat by (cbn [length]; lia).
  rewrite FOREST by auto. cbn [cumulate postorder acc_loop]. f_equal. rewrite plus_kids. reflexivity.
Qed.

(** ** make_root *)
Lemma level_shorter n : forall ch first fs it t it2, level_loop n ch first fs it = Some (t, it2) -> (length it2 <= length it)%nat.
Proof.
  induction n as [|n IH]; intros ch first fs it t it2 H; cbn in H; [discriminate|].
  destruct (is_child _ _). { injection H as <- <-. auto. }
  destruct it as [|x it']; [discriminate|]. destruct (is_brother _ _).
  - apply IH in H. cbn. lia.
  - destruct (level_loop n [fs] _ _ it') as [[fs2 it2']|] eqn:L; [|discriminate].
    apply IH in L, H. cbn. lia.
Qed.
Lemma level_stable : forall n m ch first fs it, (length it < n)%nat -> (length it < m)%nat ->
  level_loop n ch first fs it = level_loop m ch first fs it.
Proof.
  induction n as [|n IH]; intros m ch first fs it Hn Hm; [lia|]. destruct m as [|m]; [lia|]. cbn.
  destruct (is_child _ _); auto. destruct it as [|x it']; auto. cbn in Hn, Hm. destruct (is_brother _ _).
  - apply IH; lia.
  - rewrite (IH m) by lia. destruct (level_loop m [fs] _ _ it') as [[fs2 it2]|] eqn:L; auto.
    apply level_shorter in L. apply IH; lia.
Qed.
Definition LL ch first fs it := level_loop (S (length it)) ch first fs it.
Lemma level_eq n ch first fs it : level_loop (S n) ch first fs it =
  if is_child first (root_of fs) then Some (FNode (root_of fs) ch, it)
  else match it with
       | [] => None
       | x :: it' =>
           if is_brother first (root_of fs) then level_loop n (ch ++ [fs]) first (FNode x []) it'
           else match level_loop n [fs] (root_of fs) (FNode x []) it' with
                | None => None
                | Some (fs2, it2) => level_loop n ch first fs2 it2
                end
       end.
Proof. reflexivity. Qed.
Lemma LL_eq ch first fs it : LL ch first fs it =
  if is_child first (root_of fs) then Some (FNode (root_of fs) ch, it)
  else match it with
       | [] => None
       | x :: it' =>
           if is_brother first (root_of fs) then LL (ch ++ [fs]) first (FNode x []) it'
           else match LL [fs] (root_of fs) (FNode x []) it' with
                | None => None
                | Some (fs2, it2) => LL ch first fs2 it2
                end
       end.
Proof.
  unfold LL. rewrite level_eq. destruct (is_child _ _); auto. destruct it as [|x it']; auto. cbn [length].
  destruct (is_brother _ _); auto. destruct (level_loop (S (length it')) [fs] _ _ it') as [[fs2 it2]|] eqn:L; auto.
  apply level_shorter in L. apply level_stable; lia.
Qed.

(** an object below [t] (strictly) is neither brother nor parent of [first] *)
Lemma deep_no first d (n : idx) : (length (f_name first) <= length n)%nat -> f_name first <> [] -> (length n < length (f_name d))%nat ->
  is_child first d = false /\ is_brother first d = false.
Proof.
  intros H1 H2 H3. unfold is_child, is_brother. destruct (f_name first) as [|a l] eqn:E; [congruence|].
  assert (LR : length (removelast (a :: l)) = length l).
  { rewrite L_Tree.removelast_firstn, firstn_length. cbn [length]. lia. }
  split.
  - apply idx_eqb_neq. intros Q. rewrite <- Q in H3. rewrite LR in H3. cbn in H1. lia.
  - destruct (f_name d) as [|b m] eqn:D; auto. apply idx_eqb_neq. intros Q.
    apply (f_equal (@length _)) in Q. rewrite LR in Q.
    assert (LR2 : length (removelast (b :: m)) = length m).
    { rewrite L_Tree.removelast_firstn, firstn_length. cbn [length]. lia. }
    rewrite LR2 in Q. cbn in *. lia.
Qed.

Lemma post_cons t : exists x r, postorder t = x :: r.
Proof.
  destruct t as [f cs]. cbn. destruct (flat_map postorder cs ++ [f]) as [|x r] eqn:E; [|eauto].
  destruct (flat_map postorder cs); discriminate.
Qed.

Lemma climb t : forall n, named n t -> forall ch first tail x r, (length (f_name first) <= length n)%nat -> f_name first <> [] ->
  postorder t = x :: r -> LL ch first (FNode x []) (r ++ tail) = LL ch first t tail.
Proof.
  induction t as [f cs IH] using ftree_ind2. intros n HN ch first tail x r HL HF HP.
  apply named_kids in HN as [Hf HK]. destruct cs as [|c1 cs].
  { cbn in HP. injection HP as <- <-. reflexivity. }
  inversion IH as [|? ? IH1 IHs]; subst. inversion HK as [|? ? [a N1] HKs]; subst.
  destruct (post_cons c1) as (y & r1 & P1). cbn [postorder flat_map] in HP. rewrite P1 in HP. cbn [app] in HP.
  injection HP as <- <-.
  (* brothers *)
  assert (SIB : forall done first', f_name first' = f_name f ++ [a] -> forall z it, flat_map postorder cs ++ f :: tail = z :: it ->
     LL done first' (FNode z []) it = Some (FNode f (done ++ cs), tail)).
  { clear IH1 IH HL HF first ch r1 P1 y HK. induction cs as [|c2 cs IHcs]; intros done first' Hf' z it E; cbn [flat_map app] in E.
    - injection E as <- <-. rewrite LL_eq. cbn [root_of]. rewrite (is_child_snoc first' f _ a Hf' eq_refl).
      now rewrite app_nil_r.
    - inversion IHs as [|? ? IH2 IHs']; subst. inversion HKs as [|? ? [b N2] HKs']; subst.
      destruct (post_cons c2) as (u & r2 & P2). rewrite P2, <- app_assoc in E. cbn [app] in E. injection E as <- <-.
      rewrite (IH2 _ N2 done first' (flat_map postorder cs ++ f :: tail) u r2); auto.
      2:{ rewrite Hf', !app_length. cbn. lia. }
      2:{ rewrite Hf'. destruct (f_name f); discriminate. }
      rewrite LL_eq. pose proof (named_root _ _ N2) as R2.
      assert (C : is_child first' (root_of c2) = false).
      { apply not_child. right. rewrite Hf', removelast_last, R2. intros Q. apply prefix_length in Q.
        rewrite app_length in Q. cbn in Q. lia. }
      assert (B : is_brother first' (root_of c2) = true).
      { unfold is_brother. rewrite R2. destruct (f_name first') as [|q1 l1]; [destruct (f_name f); discriminate|].
        rewrite Hf'. destruct (f_name f ++ [b]) as [|q2 l2] eqn:E2; [destruct (f_name f); discriminate|].
        rewrite <- E2, !removelast_last. apply idx_eqb_refl. }
      rewrite C, B. destruct (flat_map postorder cs ++ f :: tail) as [|z it] eqn:E3; [destruct (flat_map postorder cs); discriminate|].
      rewrite (IHcs IHs' HKs' (done ++ [c2]) first' Hf' z it eq_refl). now rewrite <- app_assoc. }
  rewrite <- !app_assoc. cbn [app]. 
  rewrite (IH1 _ N1 ch first (flat_map postorder cs ++ f :: tail) y r1); auto.
  2:{ rewrite app_length. cbn. lia. }
  pose proof (named_root _ _ N1) as R1.
  destruct (deep_no first (root_of c1) (f_name f)) as [C B]; auto.
  { rewrite R1, app_length. cbn. lia. }
  rewrite LL_eq, C, B.
  destruct (flat_map postorder cs ++ f :: tail) as [|z it] eqn:E3; [destruct (flat_map postorder cs); discriminate|].
  rewrite (SIB [c1] (root_of c1) R1 z it eq_refl). reflexivity.
Qed.

Lemma make_level_eq fs it : make_level fs it = match it with [] => None | x :: it' => LL [fs] (root_of fs) (FNode x []) it' end.
Proof.
  unfold make_level. destruct it as [|x it']; auto. unfold LL. apply level_stable; cbn; lia.
Qed.
Lemma root_mono n : forall m fs it t, (n <= m)%nat -> root_loop n fs it = Some t -> root_loop m fs it = Some t.
Proof.
  induction n as [|n IH]; intros m fs it t H E.
  - destruct m; cbn in *; destruct (f_name (root_of fs)); auto; discriminate.
  - destruct m as [|m]; [lia|]. cbn in *. destruct (f_name (root_of fs)); auto.
    destruct (make_level fs it) as [[fs' it']|]; [|discriminate]. eapply IH; eauto. lia.
Qed.

(** one level *)
Lemma level_siblings f a c1 cs tail : f_name (root_of c1) = f_name f ++ [a] ->
  Forall (fun c => exists x, named (f_name f ++ [x]) c) cs ->
  make_level c1 (flat_map postorder cs ++ f :: tail) = Some (FNode f (c1 :: cs), tail).
Proof.
  intros R1 HK. rewrite make_level_eq.
  assert (SIB : forall done first', f_name first' = f_name f ++ [a] -> forall z it, flat_map postorder cs ++ f :: tail = z :: it ->
     LL done first' (FNode z []) it = Some (FNode f (done ++ cs), tail)).
  { clear R1 c1. induction cs as [|c2 cs IHcs]; intros done first' Hf' z it E; cbn [flat_map app] in E.
    - injection E as <- <-. rewrite LL_eq. cbn [root_of]. rewrite (is_child_snoc first' f _ a Hf' eq_refl).
      now rewrite app_nil_r.
    - inversion HK as [|? ? [b N2] HKs']; subst.
      destruct (post_cons c2) as (u & r2 & P2). rewrite P2, <- app_assoc in E. cbn [app] in E. injection E as <- <-.
      rewrite (climb c2 _ N2 done first' (flat_map postorder cs ++ f :: tail) u r2); auto.
      2:{ rewrite Hf', !app_length. cbn. lia. }
      2:{ rewrite Hf'. destruct (f_name f); discriminate. }
      rewrite LL_eq. pose proof (named_root _ _ N2) as R2.
      assert (C : is_child first' (root_of c2) = false).
      { apply not_child. right. rewrite Hf', removelast_last, R2. intros Q. apply prefix_length in Q.
        rewrite app_length in Q. cbn in Q. lia. }
      assert (B : is_brother first' (root_of c2) = true).
      { unfold is_brother. rewrite R2. destruct (f_name first') as [|q1 l1]; [destruct (f_name f); discriminate|].
        rewrite Hf'. destruct (f_name f ++ [b]) as [|q2 l2] eqn:E2; [destruct (f_name f); discriminate|].
        rewrite <- E2, !removelast_last. apply idx_eqb_refl. }
      rewrite C, B. destruct (flat_map postorder cs ++ f :: tail) as [|z it] eqn:E3; [destruct (flat_map postorder cs); discriminate|].
      rewrite (IHcs HKs' (done ++ [c2]) first' Hf' z it eq_refl). now rewrite <- app_assoc. }
  destruct (flat_map postorder cs ++ f :: tail) as [|z it] eqn:E3; [destruct (flat_map postorder cs); discriminate|].
  now rewrite (SIB [c1] (root_of c1) R1 z it eq_refl).
Qed.

Lemma root_climb t : forall n, named n t -> n <> [] -> forall fuel tail x r res, postorder t = x :: r ->
  root_loop fuel t tail = Some res -> root_loop (length r + fuel) (FNode x []) (r ++ tail) = Some res.
Proof.
  induction t as [f cs IH] using ftree_ind2. intros n HN Hn fuel tail x r res HP H.
  apply named_kids in HN as [Hf HK]. destruct cs as [|c1 cs].
  { cbn in HP. injection HP as <- <-. exact H. }
  inversion IH as [|? ? IH1 IHs]; subst. inversion HK as [|? ? [a N1] HKs]; subst.
  destruct (post_cons c1) as (y & r1 & P1). cbn [postorder flat_map] in HP. rewrite P1 in HP. cbn [app] in HP.
  injection HP as <- <-. rewrite <- !app_assoc. cbn [app].
  pose proof (named_root _ _ N1) as R1.
  assert (ST : root_loop (S fuel) c1 (flat_map postorder cs ++ f :: tail) = Some res).
  { cbn [root_loop]. rewrite R1. destruct (f_name f ++ [a]) eqn:E; [destruct (f_name f); discriminate|].
    rewrite (level_siblings f a c1 cs tail); auto. now rewrite R1, E. }
  eapply root_mono; [|eapply (IH1 _ N1); [destruct (f_name f); discriminate|exact P1|exact ST]].
  rewrite !app_length. cbn. lia.
Qed.

Lemma make_root_tree t : named [] t -> make_root (postorder t) = Some t.
Proof.
  destruct t as [f cs]. intros HN. apply named_kids in HN as [Hf HK]. destruct cs as [|c1 cs].
  { cbn. rewrite Hf. reflexivity. }
  inversion HK as [|? ? [a N1] HKs]; subst. cbn [postorder flat_map].
  destruct (post_cons c1) as (y & r1 & P1). rewrite P1. cbn [app make_root].
  pose proof (named_root _ _ N1) as R1. rewrite <- !app_assoc.
  assert (ST : root_loop 1 c1 (flat_map postorder cs ++ [f]) = Some (FNode f (c1 :: cs))).
  { cbn [root_loop]. rewrite R1. cbn [app]. rewrite (level_siblings f a c1 cs []); auto.
    - cbn. now rewrite Hf.
    - now rewrite Hf.
    - now rewrite Hf. }
  eapply root_mono; [|eapply (root_climb c1 _ N1); [discriminate|exact P1|exact ST]].
  cbn [length]. rewrite !app_length. cbn. lia.
Qed.

(** ** pruning *)
Lemma filter_flat {T S} (p : S -> bool) (g : T -> list S) l : filter p (flat_map g l) = flat_map (fun x => filter p (g x)) l.
Proof. induction l; cbn; auto. now rewrite filter_app, IHl. Qed.

Definition hereditary (c : fstat) : ftree -> Prop :=
  fix H t := match t with FNode f cs =>
    (fix all l := match l with [] => True | x :: r => ((fs_ge (root_of x) c = true -> fs_ge f c = true) /\ H x) /\ all r end) cs end.
Lemma hereditary_kids c f cs : hereditary c (FNode f cs) <->
  Forall (fun x => (fs_ge (root_of x) c = true -> fs_ge f c = true) /\ hereditary c x) cs.
Proof.
  cbn [hereditary]. split; intros H.
  - induction cs as [|x r IH]; constructor; [apply H|apply IH, H].
  - induction H; cbn; auto.
Qed.
Lemma filter_none c t : hereditary c t -> fs_ge (root_of t) c = false -> filter (fun x => fs_ge x c) (postorder t) = [].
Proof.
  induction t as [f cs IH] using ftree_ind2. intros H F. cbn [root_of] in F. apply hereditary_kids in H.
  cbn [postorder]. rewrite filter_app. cbn [filter]. rewrite F, app_nil_r, filter_flat.
  induction cs as [|x r IHr]; auto. inversion IH as [|? ? Ia Ib]; subst. inversion H as [|? ? [Ha Hb] Hc]; subst. cbn [flat_map].
  rewrite Ia, IHr; auto. destruct (fs_ge (root_of x) c); auto. now rewrite Ha in F.
Qed.
Lemma filter_prune c t : hereditary c t -> fs_ge (root_of t) c = true ->
  filter (fun x => fs_ge x c) (postorder t) = postorder (prune c t).
Proof.
  induction t as [f cs IH] using ftree_ind2. intros H F. cbn [root_of] in F. apply hereditary_kids in H.
  cbn [postorder prune]. rewrite filter_app. cbn [filter]. rewrite F, filter_flat. f_equal.
  induction cs as [|x r IHr]; auto. inversion IH as [|? ? Ia Ib]; subst. inversion H as [|? ? [Ha Hb] Hc]; subst. cbn [flat_map].
  rewrite IHr; auto. destruct (fs_ge (root_of x) c) eqn:E.
  - rewrite Ia by auto. rewrite flat_map_app. cbn [flat_map]. now rewrite app_nil_r.
  - now rewrite filter_none.
Qed.
Lemma prune_named c t : forall n, named n t -> named n (prune c t).
Proof.
  induction t as [f cs IH] using ftree_ind2. intros n H. apply named_kids in H as [Hf HK]. cbn [prune]. apply named_kids.
  split; auto. induction cs as [|x r IHr]; [constructor|]. inversion IH; subst. inversion HK as [|? ? [a N] HK']; subst.
  cbn [flat_map]. apply Forall_app. split; auto. destruct (fs_ge (root_of x) c); constructor; eauto.
Qed.
Lemma cumulate_named t : forall n, named n t -> named n (cumulate t).
Proof.
  induction t as [f cs IH] using ftree_ind2. intros n H. apply named_kids in H as [Hf HK]. cbn [cumulate]. apply named_kids.
  split; auto. induction cs as [|x r IHr]; [constructor|]. inversion IH; subst. inversion HK as [|? ? [a N] HK']; subst.
  cbn [map]. constructor; eauto.
Qed.

Lemma total_nonneg (v : fstat -> Z) t : (forall x, In x (preorder t) -> 0 <= v x) -> 0 <= total v t.
Proof. unfold total. induction (preorder t); cbn; intros H; [lia|]. pose proof (H a (or_introl eq_refl)). assert (0 <= fold_right (fun x s => v x + s) 0 l) by (apply IHl; intros; apply H; now right). lia. Qed.
Lemma total_kid (v : fstat -> Z) f cs c : (forall x, In x (preorder (FNode f cs)) -> 0 <= v x) -> In c cs -> total v c <= total v (FNode f cs).
Proof.
  intros H Hc. rewrite total_node. assert (0 <= v f) by (apply H; now left).
  assert (K : forall d, In d cs -> 0 <= total v d).
  { intros d Hd. apply total_nonneg. intros x Hx. apply H. right. apply in_flat_map. eauto. }
  clear H. assert (total v c <= fold_right (fun c s => total v c + s) 0 cs); [|lia].
  induction cs as [|d r IH]; [destruct Hc|]. cbn [fold_right].
  assert (0 <= fold_right (fun c s => total v c + s) 0 r).
  { assert (K' : forall d, In d r -> 0 <= total v d) by (intros; apply K; now right). clear -K'. induction r; cbn; [lia|].
    pose proof (K' a (or_introl eq_refl)). assert (0 <= fold_right (fun c s => total v c + s) 0 r) by (apply IHr; intros; apply K'; now right). lia. }
  destruct Hc as [->|Hc]; [lia|]. pose proof (K d (or_introl eq_refl)). assert (total v c <= fold_right (fun c s => total v c + s) 0 r) by (apply IH; auto; intros; apply K; now right). lia.
Qed.
Lemma cumulate_hereditary c t : (forall x, In x (preorder t) -> nonneg x) -> hereditary c (cumulate t).
Proof.
  induction t as [f cs IH] using ftree_ind2. intros H. cbn [cumulate]. apply hereditary_kids. rewrite Forall_map.
  rewrite Forall_forall in *. intros d Hd. split.
  - rewrite root_cumulate. unfold fs_ge. cbn [f_changed f_src f_inc].
    pose proof (total_kid f_changed f cs d ltac:(intros; now apply H) Hd).
    pose proof (total_kid f_src f cs d ltac:(intros; now apply H) Hd).
    pose proof (total_kid f_inc f cs d ltac:(intros; now apply H) Hd).
    intros Q. apply orb_true_iff in Q as [Q|Q]; [apply orb_true_iff in Q as [Q|Q]|]; apply Z.leb_le in Q.
    + apply orb_true_iff. left. apply orb_true_iff. left. apply Z.leb_le. lia.
    + apply orb_true_iff. left. apply orb_true_iff. right. apply Z.leb_le. lia.
    + apply orb_true_iff. right. apply Z.leb_le. lia.
  - apply IH; auto. intros x Hx. apply H. right. apply in_flat_map. eauto.
Qed.

(** ** C42: from the lines about a tree, listed depth first, comes the tree of the directories
    above a limit, each standing for everything below it *)
Theorem C42_tree : forall t cutoff lines,
  named [] t -> (forall x, In x (preorder t) -> nonneg x) ->
  yield_fs lines = preorder t ->
  fs_ge (root_of (cumulate t)) cutoff = true ->
  make_tree cutoff lines = Some (prune cutoff (cumulate t)).
Proof.
  intros t cutoff lines HN HP HY HR. unfold make_tree. rewrite HY, accumulate_tree by auto.
  rewrite filter_prune; auto.
  - apply make_root_tree, prune_named, cumulate_named; auto.
  - now apply cumulate_hereditary.
Qed.

(** the numbers of the root are those of all the files *)
Corollary C42_root_total : forall t cutoff lines r,
  named [] t -> (forall x, In x (preorder t) -> nonneg x) -> yield_fs lines = preorder t ->
  fs_ge (root_of (cumulate t)) cutoff = true -> make_tree cutoff lines = Some r ->
  f_src (root_of r) = fold_right (fun x s => f_src x + s) 0 (yield_fs lines) /\
  f_inc (root_of r) = fold_right (fun x s => f_inc x + s) 0 (yield_fs lines) /\
  f_changed (root_of r) = fold_right (fun x s => f_changed x + s) 0 (yield_fs lines).
Proof.
  intros t cutoff lines r HN HP HY HR HM. rewrite (C42_tree t cutoff lines HN HP HY HR) in HM. injection HM as <-.
  rewrite HY. destruct t as [f cs]. cbn. auto.
Qed.

(** nothing is counted twice among the top directories *)
Lemma fold_left_add l : forall z, fold_left Z.add l z = z + fold_right Z.add 0 l.
Proof. induction l; intros z; cbn; [lia|]. rewrite IHl. lia. Qed.
Lemma sum_snd_app a b : sum_snd (a ++ b) = sum_snd a + sum_snd b.
Proof. induction a; cbn; auto. unfold sum_snd in *. lia. Qed.
Lemma top_sum v cut t : sum_snd (fst (top_helper v cut t)) = snd (top_helper v cut t).
Proof.
  induction t as [f cs IH] using ftree_ind2. cbn [top_helper]. destruct (v f <=? cut); auto. cbv zeta.
  assert (E : sum_snd (concat (map fst (map (top_helper v cut) cs))) = fold_left Z.add (map snd (map (top_helper v cut) cs)) 0).
  { rewrite fold_left_add, Z.add_0_l. induction cs as [|c r IHr]; auto. inversion IH; subst. cbn [map concat fold_right].
    rewrite sum_snd_app. rewrite H1, IHr; auto. }
  destruct (cut <=? _); cbn [fst snd].
  - unfold sum_snd in *. cbn [fold_right snd]. rewrite E. lia.
  - exact E.
Qed.

Lemma dominated_kids v f cs : dominated v (FNode f cs) <->
  0 <= v f /\ fold_right (fun c s => v (root_of c) + s) 0 cs <= v f /\ Forall (dominated v) cs.
Proof.
  cbn [dominated]. split; intros (H1 & H2 & H3); split; [auto|split; auto|auto|split; auto].
  - induction cs as [|x r IH]; constructor; [apply H3|]. apply IH; [|apply H3].
    destruct H3 as [H3 _]. destruct x as [g gs]. cbn [dominated] in H3. cbn [fold_right root_of] in H2. lia.
  - clear H2. induction H3; cbn; auto.
Qed.
Lemma distinct_kids f cs : distinct (FNode f cs) <-> NoDup (map (fun c => f_name (root_of c)) cs) /\ Forall distinct cs.
Proof.
  cbn [distinct]. split; intros [H1 H2]; split; auto.
  - clear H1. induction cs as [|x r IH]; constructor; [apply H2|apply IH, H2].
  - clear H1. induction H2; cbn; auto.
Qed.
Lemma dominated_nonneg v t : dominated v t -> 0 <= v (root_of t).
Proof. destruct t. now intros [H _]. Qed.
Lemma kid_le v f cs c : dominated v (FNode f cs) -> In c cs -> v (root_of c) <= v f.
Proof.
  intros H Hc. apply dominated_kids in H as (_ & H2 & H3).
  assert (v (root_of c) <= fold_right (fun c s => v (root_of c) + s) 0 cs); [|lia]. clear H2.
  assert (K : forall l, Forall (dominated v) l -> 0 <= fold_right (fun c s => v (root_of c) + s) 0 l).
  { induction 1 as [|x l Hx Hl IH]; cbn; [lia|]. pose proof (dominated_nonneg _ _ Hx). lia. }
  induction H3 as [|x l Hx Hl IH]; [destruct Hc|]. cbn [fold_right]. pose proof (dominated_nonneg _ _ Hx). pose proof (K l Hl).
  destruct Hc as [->|Hc]; [lia|]. specialize (IH Hc). lia.
Qed.

Definition excl v cut (cs : list ftree) : Z := fold_right Z.add 0 (map (fun c => snd (top_helper v cut c)) cs).
Lemma top_unfold v cut f cs : top_helper v cut (FNode f cs) =
  if v f <=? cut then ([], 0) else
  if cut <=? v f - excl v cut cs then ((f, v f - excl v cut cs) :: concat (map (fun c => fst (top_helper v cut c)) cs), v f)
  else (concat (map (fun c => fst (top_helper v cut c)) cs), excl v cut cs).
Proof.
  cbn [top_helper]. rewrite fold_left_add, Z.add_0_l, !map_map. unfold excl. reflexivity.
Qed.
Lemma excl_bounds v cut cs : Forall (fun c => 0 <= snd (top_helper v cut c) <= v (root_of c)) cs ->
  0 <= excl v cut cs <= fold_right (fun c s => v (root_of c) + s) 0 cs.
Proof. unfold excl. induction 1; cbn; lia. Qed.
Lemma top_bounds v cut t : dominated v t -> 0 <= snd (top_helper v cut t) <= v (root_of t) /\
  (0 <= cut -> v (root_of t) - snd (top_helper v cut t) <= cut).
Proof.
  induction t as [f cs IH] using ftree_ind2. intros H. apply dominated_kids in H as (H1 & H2 & H3).
  assert (B : 0 <= excl v cut cs <= fold_right (fun c s => v (root_of c) + s) 0 cs).
  { apply excl_bounds. rewrite Forall_forall in *. intros c Hc. apply IH; auto. }
  rewrite top_unfold. cbn [root_of]. destruct (v f <=? cut) eqn:E; cbn [snd]; [apply Z.leb_le in E; lia|].
  destruct (cut <=? v f - excl v cut cs) eqn:E2; cbn [snd]; [lia|apply Z.leb_gt in E2; lia].
Qed.
Lemma top_names v cut t : forall n, named n t -> forall p, In p (fst (top_helper v cut t)) ->
  firstn (length n) (f_name (fst p)) = n /\ In (fst p) (preorder t).
Proof.
  induction t as [f cs IH] using ftree_ind2. intros n HN p Hp. apply named_kids in HN as [Hf HK]. rewrite top_unfold in Hp.
  destruct (v f <=? cut); [destruct Hp|].
  assert (G : In p (concat (map (fun c => fst (top_helper v cut c)) cs)) -> firstn (length n) (f_name (fst p)) = n /\ In (fst p) (preorder (FNode f cs))).
  { intros Hc. apply in_concat in Hc as (l & Hl & Hp'). apply in_map_iff in Hl as (c & <- & Hc).
    rewrite Forall_forall in *. destruct (HK c Hc) as [x Hx]. destruct (IH c Hc _ Hx p Hp') as [A B].
    split; [|right; apply in_flat_map; eauto].
    rewrite app_length in A. apply (f_equal (firstn (length n))) in A. rewrite firstn_firstn in A.
    replace (Init.Nat.min (length n) (length n + length [x])) with (length n) in A by (cbn; lia).
    rewrite A. rewrite firstn_app, Nat.sub_diag, firstn_all. apply app_nil_r. }
  destruct (cut <=? _); auto. destruct Hp as [<-|Hp]; auto. cbn [fst]. rewrite Hf, firstn_all. split; auto. now left.
Qed.
Lemma reported_app n a b : reported_in n (a ++ b) = reported_in n a ++ reported_in n b.
Proof. apply filter_app. Qed.
Lemma reported_all n t v cut : named n t -> reported_in n (fst (top_helper v cut t)) = fst (top_helper v cut t).
Proof.
  intros HN. pose proof (top_names v cut t n HN) as H. unfold reported_in. induction (fst (top_helper v cut t)) as [|p l IH]; auto.
  cbn [filter]. rewrite (proj1 (H p (or_introl eq_refl))), idx_eqb_refl, IH; auto. intros q Hq. apply H. now right.
Qed.
Lemma subtree_named s t : subtree s t -> forall n, named n t -> exists m, f_name (root_of s) = n ++ m /\ named (n ++ m) s.
Proof.
  induction 1 as [|f cs c Hc H IH]; intros n HN.
  - exists []. rewrite app_nil_r. split; auto. now apply named_root.
  - apply named_kids in HN as [_ HK]. rewrite Forall_forall in HK. destruct (HK c Hc) as [x Hx].
    destruct (IH _ Hx) as (m & A & B). exists (x :: m). rewrite <- app_assoc in *. auto.
Qed.
Lemma reported_other n x y m v cut t : x <> y -> named (n ++ [x]) t -> reported_in (n ++ y :: m) (fst (top_helper v cut t)) = [].
Proof.
  intros Hxy HN. pose proof (top_names v cut t _ HN) as H. unfold reported_in. induction (fst (top_helper v cut t)) as [|p l IH]; auto.
  cbn [filter]. rewrite IH by (intros q Hq; apply H; now right).
  destruct (idx_eqb (firstn _ _) _) eqn:E; auto. exfalso. apply idx_eqb_eq in E.
  destruct (H p (or_introl eq_refl)) as [A _].
  apply (f_equal (firstn (length (n ++ [x])))) in E. rewrite firstn_firstn in E.
  replace (Init.Nat.min (length (n ++ [x])) (length (n ++ y :: m))) with (length (n ++ [x])) in E by (rewrite !app_length; cbn; lia).
  rewrite A in E. change (y :: m) with ([y] ++ m) in E. rewrite app_assoc in E.
  replace (length (n ++ [x])) with (length (n ++ [y])) in E by (rewrite !app_length; reflexivity).
  rewrite firstn_app, Nat.sub_diag, firstn_all, app_nil_r in E. apply app_inv_head in E. congruence.
Qed.
Lemma reported_kid v cut n cs c m : In c cs -> forall x, named (n ++ [x]) c ->
  Forall (fun c => exists x, named (n ++ [x]) c) cs -> NoDup (map (fun c => f_name (root_of c)) cs) ->
  reported_in (n ++ x :: m) (concat (map (fun c => fst (top_helper v cut c)) cs)) = reported_in (n ++ x :: m) (fst (top_helper v cut c)).
Proof.
  intros Hc x Hx HK ND. induction cs as [|d r IH]; [destruct Hc|].
  inversion HK as [|? ? [y Hy] HK']; subst. cbn [map] in ND. inversion ND as [|? ? N1 N2]; subst.
  cbn [map concat]. rewrite reported_app. destruct Hc as [->|Hc].
  - assert (E : reported_in (n ++ x :: m) (concat (map (fun c => fst (top_helper v cut c)) r)) = []); [|now rewrite E, app_nil_r].
    clear -HK' N1 Hx. apply named_root in Hx. rewrite Hx in N1. induction r as [|e r IH]; auto.
    inversion HK' as [|? ? [z Hz] HK'']; subst. cbn [map concat]. rewrite reported_app, IH; auto.
    + rewrite (reported_other n z x m); auto. intros ->. apply N1. left. now apply named_root.
    + intros Q. apply N1. now right.
  - rewrite IH by auto. rewrite (reported_other n y x m); auto. intros ->. apply N1.
    apply in_map_iff. exists c. split; auto. rewrite (named_root _ _ Hx), (named_root _ _ Hy). auto.
Qed.
Lemma dominated_sub v s t : subtree s t -> dominated v t -> dominated v s /\ v (root_of s) <= v (root_of t).
Proof.
  induction 1 as [|f cs c Hc H IH]; intros HD; [split; auto; lia|]. pose proof (kid_le _ _ _ _ HD Hc).
  apply dominated_kids in HD as (_ & _ & HD). rewrite Forall_forall in HD. destruct (IH (HD c Hc)). split; auto. cbn. lia.
Qed.
Lemma top_sub v cut t s : subtree s t -> forall n, named n t -> distinct t -> dominated v t ->
  reported_in (f_name (root_of s)) (fst (top_helper v cut t)) = fst (top_helper v cut s) \/
  (reported_in (f_name (root_of s)) (fst (top_helper v cut t)) = [] /\ v (root_of s) <= cut).
Proof.
  induction 1 as [|f cs c Hc H IH]; intros n HN HU HD.
  - left. rewrite (named_root _ _ HN). now apply reported_all.
  - pose proof (kid_le _ _ _ _ HD Hc) as Hle. rewrite top_unfold. pose proof HN as HN0. apply named_kids in HN as [Hf HK].
    apply distinct_kids in HU as [HU1 HU2]. pose proof HD as HD0. apply dominated_kids in HD as (_ & _ & HD).
    pose proof HK as HK0. rewrite Forall_forall in HK, HU2, HD. destruct (HK c Hc) as [x Hx].
    destruct (dominated_sub v _ _ H (HD c Hc)) as [_ Hs].
    destruct (v f <=? cut) eqn:E; [right; apply Z.leb_le in E; split; auto; lia|].
    destruct (subtree_named _ _ H _ Hx) as (m & Nm & _). rewrite <- app_assoc in Nm. cbn [app] in Nm.
    assert (K : reported_in (f_name (root_of s)) (concat (map (fun c => fst (top_helper v cut c)) cs)) = reported_in (f_name (root_of s)) (fst (top_helper v cut c))).
    { rewrite Nm. now apply reported_kid. }
    specialize (IH _ Hx (HU2 c Hc) (HD c Hc)).
    destruct (cut <=? _); cbn [fst]; [|rewrite K; exact IH].
    unfold reported_in in K |- *. cbn [filter fst].
    assert (E2 : idx_eqb (firstn (length (f_name (root_of s))) (f_name f)) (f_name (root_of s)) = false).
    { apply idx_eqb_neq. rewrite Nm, Hf. intros Q. apply (f_equal (@length _)) in Q. rewrite firstn_length, app_length in Q. cbn [length] in Q. lia. }
    rewrite E2, K. exact IH.
Qed.

(** the top directories: each value reported is at least the limit and belongs to a directory
    of the tree; nothing is counted twice (the values reported for a directory and what is in
    it never add up to more than the directory has) and nothing is forgotten (what isn't reported of a directory is
    at most the limit) *)
Theorem C42_top : forall (v : fstat -> Z) cutoff t,
  named [] t -> distinct t -> dominated v t -> 0 <= v cutoff ->
  (forall f x, In (f, x) (get_top v cutoff t) -> v cutoff <= x /\ In f (preorder t)) /\
  (forall s, subtree s t ->
     0 <= sum_snd (reported_in (f_name (root_of s)) (get_top v cutoff t)) <= v (root_of s) /\
     v (root_of s) - sum_snd (reported_in (f_name (root_of s)) (get_top v cutoff t)) <= v cutoff).
Proof.
  intros v cutoff t HN HU HD HC. unfold get_top. split.
  - intros f x Hx. split; [|apply (top_names _ _ _ _ HN _ Hx)]. clear HN HU HD HC. induction t as [g cs IH] using ftree_ind2.
    rewrite top_unfold in Hx. destruct (v g <=? v cutoff); [destruct Hx|].
    assert (G : In (f, x) (concat (map (fun c => fst (top_helper v (v cutoff) c)) cs)) -> v cutoff <= x).
    { intros Q. apply in_concat in Q as (l & Hl & Hp). apply in_map_iff in Hl as (c & <- & Hc). rewrite Forall_forall in IH. eauto. }
    destruct (v cutoff <=? v g - excl v (v cutoff) cs) eqn:E2; [|auto]. destruct Hx as [Hx|Hx]; auto.
    injection Hx as <- <-. now apply Z.leb_le.
  - intros s Hs. destruct (dominated_sub _ _ _ Hs HD) as [Ds _].
    destruct (top_sub v (v cutoff) t s Hs [] HN HU HD) as [->|[-> Hc]].
    + rewrite top_sum. destruct (top_bounds v (v cutoff) s Ds) as [B1 B2]. split; auto.
    + cbn. pose proof (dominated_nonneg _ _ Ds). lia.
Qed.
Print Assumptions C42_top.

(** the trees made of file statistics are such trees *)
Lemma total_sum_kids (v : fstat -> Z) (w : fstat -> Z) cs : (forall c, In c cs -> w (root_of (cumulate c)) = total v c) ->
  fold_right (fun c s => w (root_of c) + s) 0 (map cumulate cs) = fold_right (fun c s => total v c + s) 0 cs.
Proof. induction cs as [|c r IH]; cbn [map fold_right]; auto. intros H. rewrite IH, H; auto; [now left|]. intros; apply H; now right. Qed.
Lemma cumulate_dominated v t : (forall u, v (root_of (cumulate u)) = total v u) ->
  (forall x, In x (preorder t) -> 0 <= v x) -> dominated v (cumulate t).
Proof.
  intros HV. induction t as [f cs IH] using ftree_ind2. intros HP. specialize (HV (FNode f cs)) as HV0.
  assert (HN := total_nonneg v (FNode f cs) HP). rewrite <- HV0 in HN. cbn [cumulate] in *. apply dominated_kids. split; [exact HN|split].
  - cbn [root_of] in HV0. rewrite HV0, total_node.
    rewrite (total_sum_kids v v) by auto. assert (0 <= v f) by (apply HP; now left). lia.
  - rewrite Forall_map. rewrite Forall_forall in *. intros c Hc. apply IH; auto. intros x Hx. apply HP. right. apply in_flat_map. eauto.
Qed.
Lemma prune_root c t : root_of (prune c t) = root_of t.
Proof. destruct t. reflexivity. Qed.
Lemma prune_dominated v c t : dominated v t -> dominated v (prune c t).
Proof.
  induction t as [f cs IH] using ftree_ind2. intros H. apply dominated_kids in H as (H1 & H2 & H3). cbn [prune]. apply dominated_kids.
  split; auto. clear H1. split.
  - assert (fold_right (fun c s => v (root_of c) + s) 0 (flat_map (fun x => if fs_ge (root_of x) c then [prune c x] else []) cs) <=
      fold_right (fun c s => v (root_of c) + s) 0 cs); [|lia]. clear IH H2. induction H3 as [|x r Hx Hr IH]; [cbn; lia|].
    cbn [flat_map fold_right]. pose proof (dominated_nonneg _ _ Hx). destruct (fs_ge _ _); cbn [app fold_right]; rewrite ?prune_root; lia.
  - rewrite Forall_forall in *. intros y Hy. apply in_flat_map in Hy as (x & Hx & Hy). destruct (fs_ge _ _); [|destruct Hy].
    destruct Hy as [<-|[]]. auto.
Qed.
Lemma cumulate_distinct t : distinct t -> distinct (cumulate t).
Proof.
  induction t as [f cs IH] using ftree_ind2. intros H. apply distinct_kids in H as [H1 H2]. cbn [cumulate]. apply distinct_kids.
  rewrite map_map. split.
  - erewrite map_ext; [exact H1|]. intros a. apply cumulate_name.
  - rewrite Forall_map. rewrite Forall_forall in *. auto.
Qed.
Lemma prune_distinct c t : distinct t -> distinct (prune c t).
Proof.
  induction t as [f cs IH] using ftree_ind2. intros H. apply distinct_kids in H as [H1 H2]. cbn [prune]. apply distinct_kids. split.
  - clear IH H2. induction cs as [|x r IHr]; [constructor|]. cbn [map] in H1. inversion H1 as [|? ? Ha Hb]; subst.
    cbn [flat_map]. destruct (fs_ge _ _); cbn [app map]; auto. constructor; auto. rewrite prune_root. intros Q. apply Ha.
    apply in_map_iff in Q as (y & Ey & Hy). apply in_flat_map in Hy as (z & Hz & Hy). destruct (fs_ge _ _); [|destruct Hy].
    destruct Hy as [<-|[]]. rewrite prune_root in Ey. apply in_map_iff. eauto.
  - rewrite Forall_forall in *. intros y Hy. apply in_flat_map in Hy as (x & Hx & Hy). destruct (fs_ge _ _); [|destruct Hy].
    destruct Hy as [<-|[]]. auto.
Qed.
Theorem C42_tree_for_report : forall t cutoff lines,
  named [] t -> distinct t -> (forall x, In x (preorder t) -> nonneg x) ->
  yield_fs lines = preorder t -> fs_ge (root_of (cumulate t)) cutoff = true ->
  exists r, make_tree cutoff lines = Some r /\ named [] r /\ distinct r /\
            dominated f_changed r /\ dominated f_src r /\ dominated f_inc r.
Proof.
  intros t cutoff lines HN HU HP HY HC. exists (prune cutoff (cumulate t)).
  split; [now apply C42_tree|]. split; [now apply prune_named, cumulate_named|]. split; [now apply prune_distinct, cumulate_distinct|].
  split; [|split]; apply prune_dominated, cumulate_dominated; intros; rewrite ?root_cumulate; auto; now apply HP.
Qed.
Print Assumptions C42_tree_for_report.

(** ** merging *)
Definition additive (v : fstat -> Z) : Prop := (forall x y, v (fs_add x y) = v x + v y) /\ (forall x y, v (fs_sub x y) = v x - v y).
Definition sumk (g : ftree -> Z) (l : list ftree) : Z := fold_right (fun c s => g c + s) 0 l.
Lemma sumk_app g a b : sumk g (a ++ b) = sumk g a + sumk g b.
Proof. unfold sumk. induction a; cbn; lia. Qed.
Lemma fold_sub v l : additive v -> forall f, v (fold_left (fun f c => fs_sub f (root_of c)) l f) = v f - sumk (fun c => v (root_of c)) l.
Proof. intros [HA HS]. induction l as [|c r IH]; intros f; cbn; [lia|]. rewrite IH, HS. unfold sumk. lia. Qed.
Lemma fold_addk v l : additive v -> forall f, v (fold_left (fun f c => fs_add f (root_of c)) l f) = v f + sumk (fun c => v (root_of c)) l.
Proof. intros [HA HS]. induction l as [|c r IH]; intros f; cbn; [lia|]. rewrite IH, HA. unfold sumk. lia. Qed.
Lemma fold_sub_name l : forall f, f_name (fold_left (fun f c => fs_sub f (root_of c)) l f) = f_name f.
Proof. induction l as [|c r IH]; intros f; cbn; auto. now rewrite IH. Qed.
Lemma fold_add_name l : forall f, f_name (fold_left (fun f c => fs_add f (root_of c)) l f) = f_name f.
Proof. induction l as [|c r IH]; intros f; cbn; auto. now rewrite IH. Qed.

Notation nm c := (f_name (root_of c)).
Definition gopt (g : ftree -> Z) (o : option ftree) : Z := match o with Some c => g c | None => 0 end.
Lemma get_kid_none n l : get_kid n l = None <-> ~ In n (map (fun c => nm c) l).
Proof.
  unfold get_kid. split.
  - intros H Q. apply in_map_iff in Q as (c & E & Hc). pose proof (find_none _ _ H c Hc) as F. cbn in F.
    rewrite E, idx_eqb_refl in F. discriminate.
  - intros H. destruct (find _ l) eqn:E; auto. apply find_some in E as [E1 E2]. apply idx_eqb_eq in E2. exfalso. apply H.
    apply in_map_iff. eauto.
Qed.
Lemma get_kid_some n l c : get_kid n l = Some c -> In c l /\ nm c = n.
Proof. intros H. apply find_some in H as [H1 H2]. split; auto. now apply idx_eqb_eq. Qed.
Lemma count_one (my : list ftree) n z : NoDup (map (fun c => nm c) my) ->
  sumk (fun c => if idx_eqb n (nm c) then z else 0) my = match get_kid n my with Some _ => z | None => 0 end.
Proof.
  induction my as [|c r IH]; intros ND; auto. cbn [map] in ND. inversion ND as [|? ? Ha Hb]; subst.
  unfold sumk in *. cbn [fold_right]. unfold get_kid. cbn [find]. fold (get_kid n r). rewrite IH by auto.
  destruct (idx_eqb n (nm c)) eqn:E.
  - apply idx_eqb_eq in E. subst n. rewrite idx_eqb_refl. apply get_kid_none in Ha. rewrite Ha. lia.
  - replace (idx_eqb (nm c) n) with false; [lia|]. symmetry. apply idx_eqb_neq. apply idx_eqb_neq in E. congruence.
Qed.
Lemma sumk_ext g h l : (forall c, In c l -> g c = h c) -> sumk g l = sumk h l.
Proof. unfold sumk. induction l as [|c r IH]; cbn; intros H; auto. rewrite H, IH; auto. Qed.
Lemma sumk_plus g h l : sumk (fun c => g c + h c) l = sumk g l + sumk h l.
Proof. unfold sumk. induction l as [|c r IH]; cbn; lia. Qed.
Lemma sumk_match g my other : NoDup (map (fun c => nm c) my) -> NoDup (map (fun c => nm c) other) ->
  sumk (fun c => gopt g (get_kid (nm c) other)) my +
  sumk g (filter (fun c => match get_kid (nm c) my with Some _ => false | None => true end) other) = sumk g other.
Proof.
  intros N1. induction other as [|o r IH]; intros N2.
  - cbn. unfold sumk. induction my as [|c r IH]; cbn; auto. cbn [map] in N1. inversion N1; subst. rewrite Z.add_0_r in IH. rewrite Z.add_0_r. auto.
  - cbn [map] in N2. inversion N2 as [|? ? Ha Hb]; subst.
    rewrite (sumk_ext _ (fun c => gopt g (get_kid (nm c) r) + (if idx_eqb (nm o) (nm c) then g o else 0))).
    + rewrite sumk_plus, count_one by auto. specialize (IH Hb). unfold sumk in *. cbn [filter fold_right].
      destruct (get_kid (nm o) my); cbn [fold_right]; lia.
    + intros c Hc. unfold get_kid at 1. cbn [find]. fold (get_kid (nm c) r). destruct (idx_eqb (nm o) (nm c)) eqn:E; cbn [gopt]; [|lia].
      apply idx_eqb_eq in E. rewrite <- E. apply get_kid_none in Ha. rewrite Ha. cbn. lia.
Qed.

Lemma option_all_some {T} (l : list (option T)) : (forall x, In x l -> x <> None) -> exists m, option_all l = Some m.
Proof.
  induction l as [|[x|] r IH]; intros H; cbn [option_all]; eauto.
  - destruct IH as [m ->]; [intros; apply H; now right|]. cbn. eauto.
  - destruct (H None); auto. now left.
Qed.
Lemma option_all_map {T} (h : ftree -> option T) (g : T -> Z) (k : ftree -> Z) l : forall m,
  option_all (map h l) = Some m -> (forall c x, In c l -> h c = Some x -> g x = k c) ->
  fold_right (fun c s => g c + s) 0 m = sumk k l.
Proof.
  induction l as [|c r IH]; intros m H HK; cbn [map option_all] in H.
  - injection H as <-. reflexivity.
  - destruct (h c) as [x|] eqn:E; [|discriminate]. destruct (option_all (map h r)) as [m'|] eqn:E2; [|discriminate].
    injection H as <-. cbn [fold_right]. unfold sumk. cbn [fold_right]. fold (sumk k r). rewrite <- (IH m'); auto.
    + rewrite (HK c x); auto. now left.
    + intros d y Hd. apply HK. now right.
Qed.

Lemma merge_unfold n my other r : merge (S n) my other = Some r ->
  nm my = nm other /\
  exists m, option_all (map (fun c => match get_kid (nm c) (kids other) with Some o => merge n c o | None => Some c end) (kids my)) = Some m /\
  let cs := m ++ filter (fun c => match get_kid (nm c) (kids my) with Some _ => false | None => true end) (kids other) in
  r = FNode (fs_add (fold_left (fun f c => fs_add f (root_of c)) cs (fold_left (fun f c => fs_sub f (root_of c)) (kids my) (root_of my)))
                    (fold_left (fun f c => fs_sub f (root_of c)) (kids other) (root_of other))) cs.
Proof.
  cbn [merge]. destruct (idx_eqb (nm my) (nm other)) eqn:E; [|discriminate]. apply idx_eqb_eq in E.
  destruct (option_all _) as [m|]; [|discriminate]. intros H. injection H as <-. split; auto. exists m. auto.
Qed.
Lemma merge_root v n : additive v -> forall my other r, distinct my -> distinct other -> merge n my other = Some r ->
  nm r = nm my /\ v (root_of r) = v (root_of my) + v (root_of other).
Proof.
  intros HA. induction n as [|n IH]; intros my other r D1 D2 H; [discriminate|].
  apply merge_unfold in H as (EN & m & Hm & ->). cbv zeta.
  destruct my as [f cs], other as [g ds]. apply distinct_kids in D1 as [D1 D1']. apply distinct_kids in D2 as [D2 D2'].
  rewrite Forall_forall in D1', D2'. cbn [root_of kids] in *. split.
  - cbn [f_name fs_add]. now rewrite fold_add_name, fold_sub_name.
  - destruct HA as [HA HS]. rewrite HA, fold_addk, !fold_sub, sumk_app by (split; auto).
    pose proof (sumk_match (fun c => v (root_of c)) cs ds D1 D2) as HM.
    assert (HS' : sumk (fun c => v (root_of c)) m = sumk (fun c => v (root_of c) + gopt (fun c => v (root_of c)) (get_kid (nm c) ds)) cs).
    { unfold sumk at 1. eapply option_all_map; [exact Hm|]. intros c x Hc E. cbv beta in *. destruct (get_kid (nm c) ds) as [o|] eqn:EK; cbn [gopt].
      - apply get_kid_some in EK as [EK _]. apply (IH c o x); auto.
      - injection E as <-. lia. }
    rewrite HS', sumk_plus. lia.
Qed.
Lemma value_at_node v n f cs : value_at v n (FNode f cs) = (if idx_eqb (f_name f) n then v f else 0) + sumk (value_at v n) cs.
Proof.
  unfold value_at. cbn [preorder fold_right]. f_equal. induction cs as [|c r IH]; auto. cbn [flat_map]. unfold sumk in *. cbn [fold_right].
  rewrite <- IH. induction (preorder c); cbn [app fold_right]; lia.
Qed.
Lemma merge_values v k n : additive v -> forall my other r, distinct my -> distinct other -> merge n my other = Some r ->
  value_at v k r = value_at v k my + value_at v k other.
Proof.
  intros HA. induction n as [|n IH]; intros my other r D1 D2 H; [discriminate|].
  destruct (merge_root v (S n) HA my other r D1 D2 H) as [ER EV].
  apply merge_unfold in H as (EN & m & Hm & Er).
  destruct my as [f cs], other as [g ds]. apply distinct_kids in D1 as [D1 D1']. apply distinct_kids in D2 as [D2 D2'].
  rewrite Forall_forall in D1', D2'. cbn [root_of kids] in *. cbv zeta in Er. rewrite Er in *. cbn [root_of] in ER, EV.
  rewrite !value_at_node, ER, <- EN, EV, sumk_app.
  pose proof (sumk_match (value_at v k) cs ds D1 D2) as HM.
  assert (HS' : sumk (value_at v k) m = sumk (fun c => value_at v k c + gopt (value_at v k) (get_kid (nm c) ds)) cs).
  { unfold sumk at 1. eapply option_all_map; [exact Hm|]. intros c x Hc E. cbv beta in *. destruct (get_kid (nm c) ds) as [o|] eqn:EK; cbn [gopt].
    - apply get_kid_some in EK as [EK _]. apply (IH c o x); auto.
    - injection E as <-. lia. }
  rewrite HS', sumk_plus. destruct (idx_eqb (f_name f) k); lia.
Qed.
Lemma merge_total my : forall n other, (height my <= n)%nat -> nm my = nm other -> exists r, merge n my other = Some r.
Proof.
  induction my as [f cs IH] using ftree_ind2. intros n other Hn HE. cbn [height] in Hn. destruct n as [|n]; [lia|].
  cbn [merge]. rewrite <- HE, idx_eqb_refl. cbn [kids root_of].
  destruct (option_all_some (map (fun c => match get_kid (nm c) (kids other) with Some o => merge n c o | None => Some c end) cs)) as [m Hm].
  - intros x Hx. apply in_map_iff in Hx as (c & <- & Hc). destruct (get_kid (nm c) (kids other)) as [o|] eqn:E; [|discriminate].
    apply get_kid_some in E as [_ E]. rewrite Forall_forall in IH. destruct (IH c Hc n o) as [r ->]; [|auto|discriminate].
    assert (height c <= fold_right (fun c m => Nat.max (height c) m) 0 cs)%nat; [|lia]. clear -Hc.
    induction cs as [|d r IHr]; [destruct Hc|]. cbn [fold_right]. destruct Hc as [->|Hc]; [lia|]. specialize (IHr Hc). lia.
  - rewrite Hm. eauto.
Qed.
(** adding up the statistics of two sessions: every path has the sum of what it has in both *)
Theorem C42_merge : forall my other, named [] my -> named [] other -> distinct my -> distinct other ->
  exists r, merge_trees my other = Some r /\
  forall n, value_at f_changed n r = value_at f_changed n my + value_at f_changed n other /\
            value_at f_src n r = value_at f_src n my + value_at f_src n other /\
            value_at f_inc n r = value_at f_inc n my + value_at f_inc n other.
Proof.
  intros my other N1 N2 D1 D2. apply named_root in N1, N2.
  destruct (merge_total my (height my) other) as [r Hr]; [auto|congruence|]. exists r. split; auto. intros n.
  assert (additive f_changed /\ additive f_src /\ additive f_inc) as (A1 & A2 & A3) by (repeat split).
  split; [|split]; eapply merge_values; eauto.
Qed.
Print Assumptions C42_merge.

(** ** the lines *)
Lemma quote_app a b : quote_path (a ++ b) = quote_path a ++ quote_path b.
Proof. induction a as [|c a IH]; cbn [app quote_path]; auto. destruct (Ascii.eqb c nl); [now rewrite IH|]. destruct (Ascii.eqb c bslash); now rewrite IH. Qed.
Lemma quote_join l : quote_path (join_with (bs "/") l) = join_with (bs "/") (map quote_path l).
Proof. induction l as [|a [|b l] IH]; auto. cbn [join_with map]. rewrite !quote_app. f_equal. f_equal. exact IH. Qed.
Lemma quote_In c s : In c (quote_path s) -> c = chr 110 \/ c = bslash \/ In c s.
Proof.
  induction s as [|d s IH]; [intros []|]. cbn [quote_path]. destruct (Ascii.eqb d nl).
  - intros [<-|[<-|H]]; auto. destruct (IH H) as [?|[?|?]]; auto. right; right; now right.
  - destruct (Ascii.eqb d bslash).
    + intros [<-|[<-|H]]; auto. destruct (IH H) as [?|[?|?]]; auto. right; right; now right.
    + intros [<-|H]; [right; right; now left|]. destruct (IH H) as [?|[?|?]]; auto. right; right; now right.
Qed.
Lemma size_text_ok o : sized o -> is_size (size_text o) = true /\ size_of (size_text o) = size_or_0 o /\ ~ In (chr 32) (size_text o).
Proof.
  destruct o as [r|]; cbn [size_text sized size_or_0].
  - intros H. destruct (q_reg r); [|repeat split; cbn; intuition discriminate].
    destruct (Z.to_N (q_size r)) eqn:EN.
    + assert (q_size r = 0) as -> by lia. repeat split; cbn; intuition discriminate.
    + assert (E : dec_Z (q_size r) = dec (Z.to_N (q_size r))) by (unfold dec_Z; destruct (q_size r); auto; lia).
      rewrite E. pose proof (dec_digits (Z.to_N (q_size r))) as D. pose proof (dec_nonempty (Z.to_N (q_size r))) as NE.
      assert (NA : beq_bytes (dec (Z.to_N (q_size r))) (bs "NA") = false).
      { apply beq_bytes_false. intros Q. rewrite Q in D. discriminate. }
      split; [|split].
      * unfold is_size, is_num. destruct (dec (Z.to_N (q_size r))) eqn:ED; [congruence|]. cbn [orb]. rewrite D. reflexivity.
      * unfold size_of. rewrite NA. unfold num_of. rewrite parse_N_dec. lia.
      * apply digits_no_byte; auto.
  - intros _. repeat split; cbn; intuition discriminate.
Qed.
Lemma quoted_components i : i <> [] -> good_path i -> split_on (chr 47) (quote_path (index_path i)) = map quote_path i.
Proof.
  intros Hne [_ H]. unfold index_path. destruct i as [|c i]; [congruence|]. rewrite quote_join. change (bs "/") with [chr 47].
  apply split_join; [discriminate|]. intros x Hx. apply in_map_iff in Hx as (y & <- & Hy). intros Q. apply quote_In in Q as [Q|[Q|Q]]; try discriminate Q.
  destruct (H y Hy) as [_ H']. auto.
Qed.
Lemma join_space_5 a b c d e : join_with (bs " ") [a; b; c; d; e] = a ++ chr 32 :: b ++ chr 32 :: c ++ chr 32 :: d ++ chr 32 :: e.
Proof. reflexivity. Qed.
Lemma parse_line w : good_entry w -> parse_stat (line_of w) = Some (read_as w).
Proof.
  intros (HP & H1 & H2 & H3 & _). unfold parse_stat, line_of, stat_line. rewrite join_space_5.
  destruct (size_text_ok _ H1) as (A1 & B1 & C1). destruct (size_text_ok _ H2) as (A2 & B2 & C2). destruct (size_text_ok _ H3) as (A3 & B3 & C3).
  set (ch := if w_changed w then bs "1" else bs "0"). assert (CH : ~ In (chr 32) ch) by (unfold ch; destruct (w_changed w); cbn; intuition discriminate).
  assert (SP : forall q, split_on (chr 32) (q ++ chr 32 :: ch ++ chr 32 :: size_text (w_src w) ++ chr 32 :: size_text (w_dst w) ++ chr 32 :: size_text (w_inc w)) =
    split_on (chr 32) q ++ [ch; size_text (w_src w); size_text (w_dst w); size_text (w_inc w)]).
  { intros q. rewrite <- (join_split (chr 32) q) at 1. set (l := split_on (chr 32) q).
    transitivity (split_on (chr 32) (join_with [chr 32] (l ++ [ch; size_text (w_src w); size_text (w_dst w); size_text (w_inc w)]))).
    - f_equal. assert (l <> []) by apply split_on_nonempty. clear -H. induction l as [|x [|y l] IH]; [congruence|reflexivity|].
      cbn [join_with app]. rewrite <- !app_assoc. f_equal. cbn [app]. f_equal. apply IH. discriminate.
    - apply split_join; [now destruct l|]. intros x Hx. apply in_app_or in Hx as [Hx|Hx].
      + now apply (split_on_no_sep_in _ q).
      + destruct Hx as [<-|[<-|[<-|[<-|[]]]]]; auto. }
  rewrite SP, rev_app_distr. cbn [rev app]. destruct (rev (split_on (chr 32) _)) as [|n rest] eqn:ER.
  { apply (f_equal (@rev _)) in ER. rewrite rev_involutive in ER. now apply split_on_nonempty in ER. }
  change (rev rest ++ [n]) with (rev (n :: rest)). rewrite <- ER, rev_involutive. change (bs " ") with [chr 32]. rewrite join_split, A1, A2, A3.
  replace (is_num ch) with true by (unfold ch; destruct (w_changed w); reflexivity).
  assert (MN : mem_byte nl (quote_path (index_path (w_index w))) = false).
  { destruct (mem_byte nl _) eqn:E; auto. apply mem_byte_In in E. now apply quote_path_no_nl in E. }
  rewrite MN. cbn [andb negb]. f_equal. unfold read_as. f_equal; auto.
  - destruct (w_index w) as [|c i] eqn:EI; [reflexivity|]. rewrite <- EI in *.
    destruct (beq_bytes (quote_path (index_path (w_index w))) (bs ".")) eqn:E.
    + exfalso. apply beq_bytes_true, quote_dot in E. destruct HP as [P1 P2]. apply P1. apply join_dot; auto; [now rewrite EI|].
      rewrite EI in E |- *. exact E.
    + apply quoted_components; auto. now rewrite EI.
  - unfold ch. destruct (w_changed w); reflexivity.
Qed.
Lemma starts_hash s : starts_with (bs "#") s = false -> starts_with (bs "#") (quote_path s) = false.
Proof.
  destruct s as [|c s]; auto. cbn [quote_path]. destruct (Ascii.eqb c nl); [reflexivity|]. destruct (Ascii.eqb c bslash); [reflexivity|]. auto.
Qed.
Lemma starts_hash_app s t : s <> [] -> starts_with (bs "#") (s ++ t) = starts_with (bs "#") s.
Proof. destruct s; [congruence|]. reflexivity. Qed.
(** what is written about the files is read again, whatever their names and sizes, as long as
    no path starts with "#" *)
Theorem C42_lines : forall ws, Forall good_entry ws -> yield_fs (header ++ map line_of ws) = map read_as ws.
Proof.
  intros ws H. unfold yield_fs. rewrite flat_map_app. change (flat_map _ header) with (@nil fstat). cbn [app].
  induction H as [|w ws Hw Hws IH]; auto. cbn [map flat_map]. rewrite IH, (parse_line w Hw).
  assert (E : starts_with (bs "#") (line_of w) = false); [|now rewrite E].
  destruct Hw as (HP & _ & _ & _ & HS). unfold line_of, stat_line. rewrite join_space_5, starts_hash_app.
  - now apply starts_hash.
  - now apply quote_path_ne, index_path_ne.
Qed.
Print Assumptions C42_lines.
(** ... and is forgotten if it does *)
Theorem C42_hash_refuted : exists ws : list written, Forall (fun w => good_path (w_index w) /\ sized (w_src w) /\ sized (w_dst w) /\ sized (w_inc w)) ws /\
  yield_fs (header ++ map line_of ws) <> map read_as ws.
Proof.
  exists [mk_written [] false (Some (mk_crorp [] true false 0 true None)) None None;
          mk_written [bs "#notes#"] true (Some (mk_crorp [bs "#notes#"] false true 12 true None)) None None]. split.
  - constructor; [|constructor; [|constructor]].
    + repeat split; cbn; try discriminate; try lia; destruct H.
    + repeat split; cbn; try discriminate; try lia; destruct H as [<-|[]]; [discriminate|cbn; intuition discriminate].
  - vm_compute. discriminate.
Qed.
Print Assumptions C42_hash_refuted.

(** ** C43: buffered lines *)
Lemma join_end (sep : ascii) (a : bytes) (l : list bytes) : join_with [sep] (a :: l) ++ [sep] = concat (map (fun x => x ++ [sep]) (a :: l)).
Proof.
  revert a. induction l as [|b l IH]; intros a; [cbn; now rewrite app_nil_r|].
  transitivity (a ++ sep :: (join_with [sep] (b :: l) ++ [sep])).
  - change (join_with [sep] (a :: b :: l)) with (a ++ [sep] ++ join_with [sep] (b :: l)). rewrite <- !app_assoc. reflexivity.
  - rewrite IH. set (X := concat _). change (a ++ sep :: X = (a ++ [sep]) ++ X). rewrite <- app_assoc. reflexivity.
Qed.
Lemma flush_spec (sep : ascii) (w : bytes) (b : list bytes) : flush_lines sep (w, b) = (w ++ concat (map (fun x => x ++ [sep]) b), []).
Proof. unfold flush_lines. cbn [fst snd]. destruct b; [cbn; now rewrite app_nil_r|]. now rewrite join_end. Qed.
Lemma write_line_spec n (sep : ascii) st l :
  fst (write_line n sep st l) ++ concat (map (fun x => x ++ [sep]) (snd (write_line n sep st l))) =
  (fst st ++ concat (map (fun x => x ++ [sep]) (snd st))) ++ l ++ [sep].
Proof.
  unfold write_line. cbv zeta. destruct (Nat.leb _ _); rewrite ?flush_spec; cbn [fst snd map concat]; rewrite ?app_nil_r, map_app, concat_app;
    cbn [map concat]; rewrite app_nil_r, app_assoc; reflexivity.
Qed.
(** the buffer changes nothing in what is written *)
Theorem C43_written : forall max_lines sep lines,
  write_all max_lines sep lines = concat (map (fun l => l ++ [sep]) lines).
Proof.
  intros n sep ls. unfold write_all.
  assert (G : forall st : bytes * list bytes, fst (flush_lines sep (fold_left (write_line n sep) ls st)) =
    (fst st ++ concat (map (fun x => x ++ [sep]) (snd st))) ++ concat (map (fun x => x ++ [sep]) ls)); [|now rewrite G].
  induction ls as [|l ls IH]; intros [w b].
  - cbn [fold_left]. rewrite flush_spec. cbn [map concat fst snd]. now rewrite app_nil_r.
  - cbn [fold_left]. rewrite IH, write_line_spec. cbn [map concat]. now rewrite <- !app_assoc.
Qed.
Print Assumptions C43_written.

Definition last_line (l : bytes) : list bytes := match l with [] => [] | _ => [l] end.
Definition split_rest (sep : ascii) (s : bytes) : list bytes := removelast (split_on sep s) ++ last_line (last (split_on sep s) []).
Lemma split_on_app2 sep a b : split_on sep (a ++ b) = removelast (split_on sep a) ++
  match split_on sep b with x :: xs => (last (split_on sep a) [] ++ x) :: xs | [] => [] end.
Proof.
  induction a as [|c a IH].
  - cbn. pose proof (split_on_nonempty sep b). destruct (split_on sep b); [congruence|reflexivity].
  - cbn [app split_on]. pose proof (split_on_nonempty sep a) as NA. pose proof (split_on_nonempty sep b) as NB.
    destruct (Ascii.eqb c sep).
    + rewrite IH. destruct (split_on sep a); [congruence|]. reflexivity.
    + rewrite IH. destruct (split_on sep a) as [|x [|y r]]; [congruence| |]; destruct (split_on sep b); try congruence; reflexivity.
Qed.
Lemma read_blocks_spec sep blocks : forall rest, ~ In sep rest -> read_blocks sep rest blocks = split_rest sep (rest ++ concat blocks).
Proof.
  induction blocks as [|b r IH]; intros rest Hr; cbn [read_blocks concat].
  - unfold split_rest. rewrite app_nil_r, split_on_nosep by auto. reflexivity.
  - assert (E : glue rest (split_on sep b) = split_on sep (rest ++ b)).
    { rewrite split_on_app2, (split_on_nosep sep rest Hr). pose proof (split_on_nonempty sep b). destruct (split_on sep b); [congruence|reflexivity]. }
    cbv zeta. rewrite E. rewrite IH.
    + unfold split_rest. rewrite (app_assoc rest b). rewrite (split_on_app2 sep (rest ++ b)).
      assert (SL : split_on sep (last (split_on sep (rest ++ b)) [] ++ concat r) =
        match split_on sep (concat r) with x :: xs => (last (split_on sep (rest ++ b)) [] ++ x) :: xs | [] => [] end).
      { rewrite split_on_app2, split_on_nosep; [reflexivity|]. apply (split_on_no_sep_in _ (rest ++ b)).
        destruct (exists_last (split_on_nonempty sep (rest ++ b))) as (l' & a & ->). rewrite last_last. apply in_or_app. right. now left. }
      rewrite <- SL. rewrite removelast_app by apply split_on_nonempty.
      rewrite app_assoc. f_equal. f_equal. destruct (exists_last (split_on_nonempty sep (last (split_on sep (rest ++ b)) [] ++ concat r))) as (l' & a & EX).
      rewrite EX, app_assoc, !last_last. reflexivity.
    + apply (split_on_no_sep_in _ (rest ++ b)).
      destruct (exists_last (split_on_nonempty sep (rest ++ b))) as (l' & a & ->). rewrite last_last. apply in_or_app. right. now left.
Qed.
Lemma split_ends sep ls : (forall l, In l ls -> ~ In sep l) -> split_on sep (concat (map (fun l => l ++ [sep]) ls)) = ls ++ [[]].
Proof.
  induction ls as [|l ls IH]; intros H; [reflexivity|]. cbn [map concat app]. rewrite <- app_assoc. cbn [app].
  rewrite split_on_app by (apply H; now left). f_equal. apply IH. intros; apply H; now right.
Qed.
(** however the file is cut into blocks while reading, and however lines were buffered while
    writing, the lines read are the lines written *)
Theorem C43_round_trip : forall max_lines sep lines blocks,
  (forall l, In l lines -> ~ In sep l) ->
  concat blocks = write_all max_lines sep lines ->
  read_blocks sep [] blocks = lines.
Proof.
  intros n sep ls blocks H E. rewrite read_blocks_spec by (intros []). cbn [app]. rewrite E, C43_written.
  unfold split_rest. rewrite split_ends by auto. rewrite removelast_last, last_last. cbn. apply app_nil_r.
Qed.
Print Assumptions C43_round_trip.
(** of a file cut short (at any byte), the lines read are the first lines written, the last
    of them maybe cut *)
Theorem C43_cut_file : forall max_lines sep lines blocks rest,
  (forall l, In l lines -> ~ In sep l) ->
  concat blocks ++ rest = write_all max_lines sep lines ->
  exists k cut, read_blocks sep [] blocks = firstn k lines ++ cut /\
    (cut = [] \/ exists p q, cut = [p] /\ p <> [] /\ nth_error lines k = Some (p ++ q)).
Proof.
  intros n sep ls blocks rest H E. rewrite read_blocks_spec by (intros []). cbn [app]. rewrite C43_written in E.
  generalize dependent (concat blocks). intros s E. unfold split_rest. revert s E. induction ls as [|l ls IH]; intros s E.
  - cbn in E. apply app_eq_nil in E as [-> _]. exists O, []. split; auto.
  - cbn [map concat] in E. rewrite <- app_assoc in E. cbn [app] in E.
    destruct (Nat.le_gt_cases (length s) (length l)) as [L|L].
    + assert (P : exists q, l = s ++ q).
      { apply (f_equal (firstn (length l))) in E. rewrite firstn_app, firstn_app, Nat.sub_diag, firstn_all in E. cbn [firstn] in E. rewrite app_nil_r in E.
        rewrite firstn_all2 in E by lia. eauto. }
      destruct P as [q P]. exists O. assert (~ In sep s) as NS by (intros Q; apply (H l); [now left|subst l; apply in_or_app; now left]).
      rewrite split_on_nosep by auto. cbn [removelast last app firstn]. exists (last_line s). split; auto.
      destruct s as [|a s]; [now left|]. right. exists (a :: s), q. split; [reflexivity|split; [discriminate|]]. cbn. now rewrite P.
    + assert (P : exists s', s = l ++ sep :: s').
      { pose proof E as E0. apply (f_equal (firstn (length l))) in E. rewrite firstn_app, (firstn_app (length l) l), Nat.sub_diag, firstn_all in E. cbn [firstn] in E.
        rewrite app_nil_r in E. replace (length l - length s)%nat with O in E by lia. cbn [firstn] in E. rewrite app_nil_r in E.
        rewrite <- (firstn_skipn (length l) s) in E0 |- *. rewrite E in *. rewrite <- app_assoc in E0. apply app_inv_head in E0.
        destruct (skipn (length l) s) as [|b t] eqn:ES.
        - exfalso. apply (f_equal (@length _)) in ES. rewrite skipn_length in ES. cbn in ES. lia.
        - cbn in E0. injection E0 as -> _. exists t. reflexivity. }
      destruct P as [s' ->]. rewrite <- app_assoc in E. apply app_inv_head in E. cbn [app] in E. injection E as E.
      destruct (IH ltac:(intros; apply H; now right) s' E) as (k & cut & A & B).
      exists (S k), cut. rewrite split_on_app by (apply H; now left). cbn [firstn nth_error]. split; auto.
      transitivity (l :: (removelast (split_on sep s') ++ last_line (last (split_on sep s') []))); [|now rewrite A].
      pose proof (split_on_nonempty sep s'). destruct (split_on sep s'); [congruence|]. reflexivity.
Qed.
Print Assumptions C43_cut_file.

Example C43_example : read_blocks nl [] [bs "# Fo"; bs ("a" ++ String nl "b")%string; [nl]; bs "cd"; [nl; nl]] = [bs "# Foa"; bs "b"; bs "cd"; []] /\
  write_all 2 nl [bs "# Foa"; bs "b"; bs "cd"; []] = concat [bs "# Fo"; bs ("a" ++ String nl "b")%string; [nl]; bs "cd"; [nl; nl]].
Proof. vm_compute. auto. Qed.

Definition ex_ws : list written :=
  let f i n := Some (mk_crorp i false true n true None) in let d i := Some (mk_crorp i true false 0 true None) in
  [mk_written [] false (d []) (d []) None;
   mk_written [bs "a b"] false (d [bs "a b"]) (d [bs "a b"]) None;
   mk_written [bs "a b"; bs "c"] true (f [bs "a b"; bs "c"] 100) None (f [] 0);
   mk_written [bs "a b"; bs "d"] true (f [bs "a b"; bs "d"] 7) (f [] 5) (f [] 50);
   mk_written [bs "e"] false (f [bs "e"] 20) (f [] 20) None].
Definition ex_tree : ftree :=
  FNode (mk_fstat [] 0 0 0) [FNode (mk_fstat [bs "a b"] 0 0 0) [FNode (mk_fstat [bs "a b"; bs "c"] 1 100 0) []; FNode (mk_fstat [bs "a b"; bs "d"] 1 7 50) []];
    FNode (mk_fstat [bs "e"] 0 20 0) []].
Example C42_example : yield_fs (header ++ map line_of ex_ws) = preorder ex_tree /\ named [] ex_tree /\ distinct ex_tree /\
  make_tree (mk_fstat [] 2 30 40) (header ++ map line_of ex_ws) = Some (prune (mk_fstat [] 2 30 40) (cumulate ex_tree)) /\
  option_map (get_top f_src (mk_fstat [] 2 30 40)) (make_tree (mk_fstat [] 2 30 40) (header ++ map line_of ex_ws)) =
  Some [(mk_fstat [bs "a b"; bs "c"] 1 100 0, 100)].
Proof.
  split; [vm_compute; reflexivity|]. split.
  - apply named_kids. split; auto. repeat constructor.
    + exists (bs "a b"). apply named_kids. split; auto. repeat constructor; [exists (bs "c")|exists (bs "d")]; now split.
    + exists (bs "e"). now split.
  - split; [|vm_compute; auto]. cbn. repeat split; repeat constructor; cbn; intuition discriminate.
Qed.
