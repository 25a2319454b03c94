From Coq Require Import List ZArith Bool Ascii Lia Sorted.
From Verif Require Import Base M_Iter L_Iter L_Tree M_TreeFs.
Import List ListNotations.
Local Open Scope Z_scope.

Lemma get_put i n f j : get j (put i n f) = if idx_eqb i j then Some n else get j f.
Proof.
  unfold put. cbn [get]. destruct (idx_eqb i j) eqn:E; [reflexivity|].
  induction f as [|[k m] f IH]; [reflexivity|]. unfold del in *. cbn [filter fst get].
  destruct (idx_eqb k i) eqn:E1; cbn [negb get].
  - apply idx_eqb_eq in E1. subst k. rewrite E. exact IH.
  - destruct (idx_eqb k j); [reflexivity|exact IH].
Qed.

Lemma get_del i f j : get j (del i f) = if idx_eqb i j then None else get j f.
Proof.
  induction f as [|[k m] f IH]; [now destruct (idx_eqb i j)|]. unfold del in *. cbn [filter fst get].
  destruct (idx_eqb k i) eqn:E1; cbn [negb get].
  - apply idx_eqb_eq in E1. subst k. destruct (idx_eqb i j) eqn:E2; assumption.
  - destruct (idx_eqb k j) eqn:E2; [|exact IH].
    apply idx_eqb_eq in E2. subst k. rewrite idx_eqb_neq in E1.
    destruct (idx_eqb i j) eqn:E3; [|reflexivity]. apply idx_eqb_eq in E3. congruence.
Qed.

Lemma get_put_same i n f : get i (put i n f) = Some n.
Proof. rewrite get_put, idx_eqb_refl. reflexivity. Qed.
Lemma get_put_other i n f j : i <> j -> get j (put i n f) = get j f.
Proof. intros H. rewrite get_put. apply idx_eqb_neq in H. now rewrite H. Qed.
Lemma get_del_same i f : get i (del i f) = None.
Proof. rewrite get_del, idx_eqb_refl. reflexivity. Qed.
Lemma get_del_other i f j : i <> j -> get j (del i f) = get j f.
Proof. intros H. rewrite get_del. apply idx_eqb_neq in H. now rewrite H. Qed.

Lemma get_in i f n : get i f = Some n -> In (i, n) f.
Proof.
  induction f as [|[k m] f IH]; [discriminate|]. cbn [get]. destruct (idx_eqb k i) eqn:E.
  - intros [= ->]. apply idx_eqb_eq in E. subst. now left.
  - intros H. right. now apply IH.
Qed.
Lemma in_get i f n : In (i, n) f -> get i f <> None.
Proof.
  induction f as [|[k m] f IH]; [intros []|]. cbn [get]. intros [[= -> ->]|H].
  - rewrite idx_eqb_refl. discriminate.
  - destruct (idx_eqb k i); [discriminate|now apply IH].
Qed.

Lemma has_entry_false d f : (forall c, get (d ++ [c]) f = None) -> has_entry d f = false.
Proof.
  intros H. unfold has_entry. apply not_true_iff_false. intros E. apply existsb_exists in E.
  destruct E as ([j n] & Hin & E). cbn [fst] in E. destruct j as [|x j]; [discriminate|].
  apply idx_eqb_eq in E. apply in_get in Hin.
  rewrite (@app_removelast_last _ (x :: j) x) in Hin; [|discriminate]. rewrite E in Hin. now rewrite H in Hin.
Qed.
Lemma has_entry_true d f c : get (d ++ [c]) f <> None -> has_entry d f = true.
Proof.
  intros H. destruct (get (d ++ [c]) f) as [n|] eqn:E; [|congruence]. apply get_in in E.
  unfold has_entry. apply existsb_exists. exists (d ++ [c], n). split; [assumption|]. cbn [fst].
  destruct (d ++ [c]) as [|x l] eqn:E1; [now destruct d|]. rewrite <- E1, removelast_last. apply idx_eqb_refl.
Qed.

Lemma removelast_neq (i : idx) : i <> [] -> removelast i <> i.
Proof.
  intros H E. rewrite (@app_removelast_last _ i []) in E; [|assumption].
  rewrite removelast_last in E. apply (f_equal (@length _)) in E. rewrite app_length in E. cbn in E. lia.
Qed.

Lemma removelast_below (i : idx) : i <> [] -> below (removelast i) i.
Proof.
  intros H. split; [|now apply removelast_neq]. exists [last i []]. now apply app_removelast_last.
Qed.

(** ** effect of the operations *)
(** [t'] is [t] with [n] at [i], apart from the attributes of the directory [i] is in *)
Definition changed (i : idx) (n : option node) (t t' : tree) : Prop :=
  get i (files t') = n
  /\ (forall j, j <> i -> (i = [] \/ j <> removelast i) -> get j (files t') = get j (files t))
  /\ (i <> [] -> forall a, get (removelast i) (files t) = Some (NDir a) ->
      exists a', get (removelast i) (files t') = Some (NDir a') /\ a_perms a' = a_perms a).

Definition temp_is (i : idx) (n : option node) (t t' : tree) : Prop :=
  get i (temps t') = n /\ forall j, j <> i -> get j (temps t') = get j (temps t).

Lemma changed_trans i n n' t t1 t2 : changed i n t t1 -> changed i n' t1 t2 -> changed i n' t t2.
Proof.
  intros (A1 & A2 & A3) (B1 & B2 & B3). split; [exact B1|]. split.
  - intros j Hj Hp. rewrite B2 by assumption. now apply A2.
  - intros Hi a Ha. destruct (A3 Hi a Ha) as (a1 & H1 & P1). destruct (B3 Hi a1 H1) as (a2 & H2 & P2).
    exists a2. split; [assumption|congruence].
Qed.
Lemma temp_trans i n n' t t1 t2 : temp_is i n t t1 -> temp_is i n' t1 t2 -> temp_is i n' t t2.
Proof. intros (A1 & A2) (B1 & B2). split; [assumption|]. intros j Hj. rewrite B2 by assumption. now apply A2. Qed.

Lemma touch_get now i t j : (i = [] \/ j <> removelast i) -> get j (files (touch now i t)) = get j (files t).
Proof.
  intros H. unfold touch. destruct i as [|x i]; [reflexivity|].
  destruct (get (removelast (x :: i)) (files t)) as [[a|d a]|]; try reflexivity.
  cbn [files]. apply get_put_other. destruct H; congruence.
Qed.
Lemma touch_parent now i t a : i <> [] -> get (removelast i) (files t) = Some (NDir a) ->
  exists a', get (removelast i) (files (touch now i t)) = Some (NDir a') /\ a_perms a' = a_perms a.
Proof.
  intros Hi H. unfold touch. destruct i as [|x i]; [congruence|]. rewrite H. cbn [files].
  rewrite get_put_same. eexists. split; reflexivity.
Qed.
Lemma touch_temps now i t : temps (touch now i t) = temps t.
Proof. unfold touch. destruct i as [|x i]; [reflexivity|]. now destruct (get (removelast (x :: i)) (files t)) as [[a|d a]|]. Qed.

Lemma touch_changed now i n t t1 :
  get i (files t1) = n ->
  (forall j, j <> i -> get j (files t1) = get j (files t)) -> changed i n t (touch now i t1).
Proof.
  intros H1 H2. split; [|split].
  - rewrite touch_get; [assumption|]. destruct i; [now left|right]. intros E. symmetry in E. now apply removelast_neq in E.
  - intros j Hj Hp. rewrite touch_get by assumption. now apply H2.
  - intros Hi a Ha. apply touch_parent; [assumption|]. rewrite H2; [assumption|]. now apply removelast_neq.
Qed.

(** ** permissions *)
Section Open.
Variable root : bool.
(** a directory which can be worked in *)
Definition open_dir (n : option node) : Prop :=
  exists a, n = Some (NDir a) /\ (root = true \/ (Z.testbit (a_perms a) 6 = true /\ Z.testbit (a_perms a) 7 = true)).

Lemma open_448 a n : n = Some (NDir a) -> a_perms a = 448 -> open_dir n.
Proof. intros -> E. exists a. split; [reflexivity|]. right. rewrite E. split; reflexivity. Qed.

Lemma reachable_open i t : (forall p, below p i -> open_dir (get p (files t))) -> reachable root i t = true.
Proof.
  intros H. unfold reachable. apply forallb_forall. intros k Hk. apply in_seq in Hk.
  destruct (H (firstn k i)) as (a & -> & P); [|destruct P as [-> |[-> _]]; [reflexivity|apply orb_true_r]].
  split; [apply firstn_prefix|]. intros E. apply (f_equal (@length _)) in E. rewrite firstn_length in E. lia.
Qed.
Lemma changeable_open i t : (forall p, below p i -> open_dir (get p (files t))) -> changeable root i t = true.
Proof.
  intros H. unfold changeable. rewrite reachable_open by assumption. cbn [andb].
  destruct i as [|x i]; [reflexivity|]. destruct (H (removelast (x :: i))) as (a & -> & P); [|destruct P as [-> |[_ ->]]; [reflexivity|apply orb_true_r]].
  now apply removelast_below.
Qed.

Definition opens (i : idx) (t : tree) : Prop := forall p, below p i -> open_dir (get p (files t)).

Lemma below_not_nil p i : below p i -> i <> [].
Proof. intros ([r ->] & H) E. apply app_eq_nil in E as (-> & ->). now apply H. Qed.

Lemma changed_opens i n t t' : opens i t -> changed i n t t' -> opens i t'.
Proof.
  intros H (A1 & A2 & A3) p Hp. destruct (H p Hp) as (a & Ha & P).
  destruct (list_eq_dec (list_eq_dec ascii_dec) p (removelast i)) as [->|N].
  - destruct (A3 (below_not_nil _ _ Hp) a Ha) as (a' & H' & P'). exists a'. split; [assumption|congruence].
  - exists a. split; [|assumption]. rewrite A2; [assumption|apply Hp|now right].
Qed.

Variable now : idx -> Z.

Lemma write_temp_ok i n t : opens i t -> get i (temps t) = None ->
  exists t', write_temp root now i n t = Some t' /\ changed i (get i (files t)) t t' /\ temp_is i (Some n) t t'.
Proof.
  intros H T. unfold write_temp. rewrite changeable_open by assumption. rewrite T. eexists. split; [reflexivity|]. split.
  - apply touch_changed; reflexivity.
  - split; rewrite touch_temps; cbn [temps]; [apply get_put_same|]. intros j Hj. try rewrite touch_temps. cbn [temps].
    apply get_put_other. congruence.
Qed.

Lemma rename_temp_ok i n t : opens i t -> get i (temps t) = Some n -> is_dir (get i (files t)) = false ->
  exists t', rename_temp root now i t = Some t' /\ changed i (Some n) t t' /\ temp_is i None t t'.
Proof.
  intros H T D. unfold rename_temp. rewrite changeable_open by assumption. rewrite T, D.
  eexists. split; [reflexivity|]. split.
  - apply touch_changed; cbn [files]; [apply get_put_same|]. intros j Hj. apply get_put_other. congruence.
  - split; rewrite touch_temps; cbn [temps]; [apply get_del_same|]. intros j Hj. try rewrite touch_temps. cbn [temps].
    apply get_del_other. congruence.
Qed.

Lemma unlink_ok i d a t : opens i t -> get i (files t) = Some (NOther d a) ->
  exists t', unlink root now i t = Some t' /\ changed i None t t' /\ temps t' = temps t.
Proof.
  intros H G. unfold unlink. rewrite changeable_open by assumption. rewrite G.
  eexists. split; [reflexivity|]. split; [|now rewrite touch_temps].
  apply touch_changed; cbn [files]; [apply get_del_same|]. intros j Hj. apply get_del_other. congruence.
Qed.

Lemma mkdir_ok i t : opens i t -> get i (files t) = None ->
  exists t' a, mkdir root now i t = Some t' /\ changed i (Some (NDir a)) t t' /\ a_perms a = 448 /\ temps t' = temps t.
Proof.
  intros H G. unfold mkdir. rewrite changeable_open by assumption. rewrite G.
  eexists _, _. split; [reflexivity|]. split; [|split; [|now rewrite touch_temps]].
  - apply touch_changed; cbn [files]; [apply get_put_same|]. intros j Hj. apply get_put_other. congruence.
  - reflexivity.
Qed.

Lemma put_changed i n t : changed i (Some n) t (mk_tree (put i n (files t)) (temps t)).
Proof.
  split; [apply get_put_same|]. split; cbn [files].
  - intros j Hj _. apply get_put_other. congruence.
  - intros Hi a Ha. exists a. split; [|reflexivity]. rewrite get_put_other; [assumption|].
    intros E. symmetry in E. now apply removelast_neq in E.
Qed.

Lemma chmod_ok p i a t : opens i t -> get i (files t) = Some (NDir a) ->
  exists t', chmod root p i t = Some t' /\ changed i (Some (NDir (mk_attr p (a_mtime a) (a_rest a)))) t t' /\ temps t' = temps t.
Proof.
  intros H G. unfold chmod. rewrite reachable_open by assumption. rewrite G.
  eexists. split; [reflexivity|]. split; [apply put_changed|reflexivity].
Qed.
Lemma chmod700_ok i a t : opens i t -> get i (files t) = Some (NDir a) ->
  exists t' a', chmod700 root i t = Some t' /\ changed i (Some (NDir a')) t t' /\ a_perms a' = 448
    /\ a_mtime a' = a_mtime a /\ a_rest a' = a_rest a /\ temps t' = temps t.
Proof.
  intros H G. unfold chmod700, chmod. rewrite reachable_open by assumption. rewrite G.
  eexists _, _. split; [reflexivity|]. split; [apply put_changed|]. repeat split.
Qed.

Lemma set_attribs_ok i a a' t : opens i t -> get i (files t) = Some (NDir a) ->
  exists t', set_attribs root i a' t = Some t' /\ changed i (Some (NDir a')) t t' /\ temps t' = temps t.
Proof.
  intros H G. unfold set_attribs. rewrite reachable_open by assumption. rewrite G.
  eexists. split; [reflexivity|]. split; [apply put_changed|reflexivity].
Qed.

Lemma rmdir_ok i a t : opens i t -> get i (files t) = Some (NDir a) ->
  (forall c, get (i ++ [c]) (files t) = None) -> (forall c, get (i ++ [c]) (temps t) = None) ->
  exists t', rmdir root now i t = Some t' /\ changed i None t t' /\ temps t' = temps t.
Proof.
  intros H G E1 E2. unfold rmdir. destruct (chmod700_ok i a t H G) as (t1 & a1 & -> & C & P & _ & _ & T).
  rewrite changeable_open by (eapply changed_opens; eauto). rewrite T, (has_entry_false i (temps t)) by assumption.
  rewrite has_entry_false; cbn [orb].
  2:{ intros c. destruct C as (_ & C2 & _). rewrite C2; [apply E1| |].
      - intros E. apply (f_equal (@length _)) in E. rewrite app_length in E. cbn in E. lia.
      - destruct i as [|x i]; [now left|right]. intros E. apply (f_equal (@length _)) in E.
        rewrite app_length in E. rewrite (L_Tree.removelast_firstn (x :: i)), firstn_length in E. cbn in E. lia. }
  eexists. split; [reflexivity|]. split; [|rewrite touch_temps; reflexivity].
  eapply changed_trans; [exact C|]. apply touch_changed; cbn [files]; [apply get_del_same|].
  intros j Hj. apply get_del_other. congruence.
Qed.
End Open.
