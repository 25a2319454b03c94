(** * C58, C59, C61, C62: further facts about the commands, exceptions and examples *)
From Coq Require Import List NArith ZArith Bool Lia Ascii.
From Verif Require Import Base M_Actions S_Actions L_Actions P_Actions P_Order.
Import List.
Import ListNotations.
Local Open Scope N_scope.

Section P.
Context {disk : Type}.
Variable E : env disk.
Variable o : opts.
Notation cmd a d := (command disk E o a d).
Notation ops_of a d := (s_ops (fst (cmd a d))).
Notation st := (M_Actions.st disk).
Notation wp := (wp disk E).
Notation replay := (replay disk E).

(** C61: a process which is still there at the end has given up its lock (unless giving it
    up failed) *)
Theorem C61_lock_given_up : forall a d,
  s_lock (fst (cmd a d)) = true -> snd (cmd a d) = Killed \/ In OpExit (ops_of a d).
Proof using.
  intros a d. destruct (main_parts E o a d) as [[H _]|(c & _ & H)]; [rewrite H; discriminate|].
  rewrite H. unfold leave. destruct (work E o a c (mk_st d [] false)) as [s1 x].
  assert (X : x = Killed \/ x <> Killed) by (destruct x; (now left) || (right; discriminate)).
  destruct X as [-> |X]; [now left|].
  assert (Y : s_lock (fst (if s_lock s1 then
         let (s2, y) := (if mw a then act disk E OpExit else ret disk OK) s1 in
         match y with
         | Val _ => (mk_st (s_disk s2) (s_ops s2) false, x)
         | Exc b => (s2, Exc b) | Quit => (s2, Quit) | Killed => (s2, Killed)
         end
       else (s1, x))) = true -> In OpExit (s_ops (fst (if s_lock s1 then
         let (s2, y) := (if mw a then act disk E OpExit else ret disk OK) s1 in
         match y with
         | Val _ => (mk_st (s_disk s2) (s_ops s2) false, x)
         | Exc b => (s2, Exc b) | Quit => (s2, Quit) | Killed => (s2, Killed)
         end
       else (s1, x))))).
  { destruct (s_lock s1) eqn:L; [|cbn; congruence]. destruct (mw a); [|discriminate].
    unfold act. destruct (e_eff _ E (s_ops s1) OpExit (s_disk s1)) as [d' y].
    destruct y; cbn; try discriminate; intros _; apply in_or_app; right; now left. }
  intros K. right. destruct x; try congruence; apply Y; exact K.
Qed.

(** ** Looking before acting *)
Definition silent {A} (d : disk) (m : M disk A) : Prop :=
  forall s, s_disk s = d -> wp m (fun l _ _ => l = []) s.
Definition within_at {A} (d : disk) (P : op -> Prop) (m : M disk A) : Prop :=
  forall s, s_disk s = d -> wp m (fun l _ _ => Forall P l) s.
Lemma silent_bind {A B} d (m : M disk A) (k : A -> M disk B) :
  silent d m -> (forall a, silent d (k a)) -> silent d (bind disk m k).
Proof using.
  intros H K s Hs. apply wp_bind. eapply wp_mono; [now apply H|]. cbn beta. intros l s' x [_ R] ->.
  cbn in R. destruct x; auto. eapply wp_mono; [apply K; congruence|]. cbn beta. auto.
Qed.
Lemma at_bind {A B} d P (m : M disk A) (k : A -> M disk B) :
  silent d m -> (forall a, within_at d P (k a)) -> within_at d P (bind disk m k).
Proof using.
  intros H K s Hs. apply wp_bind. eapply wp_mono; [now apply H|]. cbn beta. intros l s' x [_ R] ->.
  cbn in R. destruct x; auto. eapply wp_mono; [apply K; congruence|]. cbn beta. auto.
Qed.
Lemma at_bind' {A B} d P (m : M disk A) (k : A -> M disk B) :
  within_at d P m -> (forall a, within disk E P (k a)) -> within_at d P (bind disk m k).
Proof using.
  intros H K s Hs. apply wp_bind. eapply wp_mono; [now apply H|]. cbn beta. intros l s' x _ F.
  destruct x; auto. eapply wp_mono; [apply K|]. cbn beta. intros. apply Forall_app; auto.
Qed.
Lemma at_look {A B} d P (f : view -> A) (k : A -> M disk B) :
  within_at d P (k (f (e_view _ E d))) -> within_at d P (bind disk (look disk E f) k).
Proof using.
  intros K s Hs. apply wp_bind, wp_look. rewrite Hs. eapply wp_mono; [now apply K|]. cbn beta. auto.
Qed.
Lemma within_within_at {A} d P (m : M disk A) : within disk E P m -> within_at d P m.
Proof using. intros H s _. apply H. Qed.
Lemma silent_within {A} d (m : M disk A) : within disk E (fun _ => False) m -> silent d m.
Proof using.
  intros H s _. eapply wp_mono; [apply H|]. cbn beta. intros l _ _ _ F. destruct l; [reflexivity|].
  inversion F; contradiction.
Qed.
Lemma command_at (P : op -> Prop) a d : (mw a = true -> P OpExit) ->
  within_at d P (setup disk E o a) -> within disk E P (run disk E o a) -> Forall P (ops_of a d).
Proof using.
  intros Hx Hs Hr. destruct (main_parts E o a d) as [[H _]|(c & _ & H)]; [rewrite H; constructor|].
  rewrite H.
  assert (W : wp (leave disk E a (work E o a c)) (fun l _ _ => Forall P l) (mk_st d [] false)).
  { apply leave_wp.
    assert (K : within_at d P (work E o a c)).
    { unfold work. apply at_bind'; [exact Hs|]. intros g. win. exact Hr. }
    eapply wp_mono; [now apply K|]. cbn beta. intros l s1 x _ F.
    repeat split; auto. intros _ _ Hw. cbv zeta.
    assert (Forall P (l ++ [OpExit])) by (apply Forall_app; auto). destruct (snd _); auto. }
  destruct W as (l & [W _] & F). cbn in W. rewrite W. exact F.
Qed.

(** C58: the data of a repository are not cleared away if there is a current_mirror marker (or
    several error logs or metadata files), nor, without --force, if there is a lock file *)
Theorem C58_repository_not_cleared : forall a d,
  v_kind (e_view _ E d) LRepo = KDir -> v_data (e_view _ E d) <> KNone ->
  v_nomarker (e_view _ E d) = false \/ v_lockfile (e_view _ E d) = true /\ o_force o = false ->
  ~ In OpCleanFailed (ops_of a d).
Proof using.
  intros a d Hk Hd Hm I.
  assert (F : Forall (fun p => p <> OpCleanFailed) (ops_of a d)); [|rewrite Forall_forall in F; now apply F in I].
  assert (Cr : within_at d (fun p => p <> OpCleanFailed) (create_repo disk E o)).
  { unfold create_repo. apply at_bind.
    - intros s Hs. unfold create_base. apply wp_caught, wp_bind, wp_look. rewrite Hs, Hk.
      unfold when at 1. apply wp_bind, wp_ret, wp_bind, wp_look. rewrite Hs, Hk. unfold when. now apply wp_ret.
    - intros ok. destruct (negb ok); [apply within_within_at, within_ret|].
      apply at_look, at_look.
      destruct (match v_data _ with KNone => false | _ => _ end && _ && _) eqn:B; [apply within_within_at, within_ret|].
      apply within_within_at. win; try (apply within_act; discriminate).
      + exfalso. destruct (v_data (e_view _ E d)); try congruence;
          destruct Hm as [Hm|[Hm1 Hm2]]; rewrite ?Hm, ?Hm1, ?Hm2 in *; cbn in *; try discriminate; rewrite H in B; discriminate.
      + destruct a1; win. apply within_act. discriminate.
      + destruct (negb a2); win. destruct a3; win. apply within_act. discriminate. }
  assert (Rs : forall two, within_at d (fun p => p <> OpCleanFailed) (repo_setup disk E o a two)).
  { intros two. unfold repo_setup. apply at_bind'.
    - unfold shadow_setup. apply at_bind'.
      + destruct (mw a); [exact Cr|apply within_within_at, within_ret].
      + intros ok. destruct (negb ok); win. destruct a0; win; [apply within_lock; discriminate|].
        destruct a0 as [[]|]; win. destruct (o_force o); win.
    - intros c. win; [apply within_abilities; discriminate|]. destruct (negb a0); win.
      + destruct two; win; [apply within_compare; discriminate|].
        unfold set_escapes. win. destruct a3; win. apply within_act. discriminate.
      + apply within_act. discriminate. }
  assert (Rd : forall l, silent d (bind disk (abilities disk E l false) (fun ab => ret disk (if ab : bool then OK else ERR)))).
  { intros l. apply silent_within. win. apply within_abilities. discriminate. }
  apply command_at.
  - discriminate.
  - destruct a; unfold setup; try apply Rs; try (apply within_within_at, within_ret).
    + apply at_bind; [apply Rd|]. intros c. unfold unless_err at 1. destruct (is_err c); [apply within_within_at, within_ret|].
      apply at_bind'; [apply Rs|]. intros c'. win.
    + apply at_bind'; [apply Rs|]. intros c'. win; [apply within_write_dir; discriminate|].
      destruct (o_at o || negb (e_ref_inc disk E)); win.
    + apply at_bind; [apply Rd|]. intros c. unfold unless_err at 1. destruct (is_err c); [apply within_within_at, within_ret|].
      apply at_bind'; [apply Rs|]. intros c'. win.
    + apply at_bind'; [apply Rs|]. intros c'. win.
    + apply at_bind'; [apply Rs|]. intros c'. win.
  - destruct a; unfold run; win; try (apply within_act; discriminate);
      try (apply within_regress; [discriminate|split; discriminate]).
    destruct ((a0 <? 0)%Z || (o_now o <=? a0)%Z); win. unfold operate_backup. win; try (apply within_act; discriminate).
    destruct (a0 =? 0)%Z; apply within_act; discriminate.
Qed.

(** C59: with a repository whose configuration is recorded compare writes nothing at all *)
Theorem C59_compare_writes_nothing : forall d,
  v_quote (e_view _ E d) <> None -> v_escapes (e_view _ E d) = true ->
  ops_of Compare d = [] /\ s_disk (fst (cmd Compare d)) = d.
Proof using.
  intros d Hq He.
  assert (F : Forall (fun _ => False) (ops_of Compare d)).
  { assert (Cq : silent d (compare_quoting disk E o)).
    { intros s Hs. unfold compare_quoting, L_Actions.wp. cbv zeta. rewrite Hs.
      destruct (v_quote (e_view _ E d)) as [q|]; [|congruence].
      exists []. destruct (beq _ _); (split; [apply run_to_nil|reflexivity]). }
    apply command_at.
    - discriminate.
    - unfold setup. apply at_bind.
      + apply silent_within. unfold read_dir_setup. win. apply within_abilities. discriminate.
      + intros c. unfold unless_err at 1. destruct (is_err c); [apply within_within_at, within_ret|].
        apply at_bind'; [|intros; win].
        unfold repo_setup. apply at_bind.
        * apply silent_within, within_shadow_setup. discriminate.
        * intros c1. unfold unless_err at 1. destruct (is_err c1); [apply within_within_at, within_ret|].
          apply at_bind; [apply silent_within, within_abilities; discriminate|]. intros ab.
          destruct (negb ab); [apply within_within_at, within_ret|].
          apply at_bind; [apply silent_within, within_ask|]. intros g.
          apply at_bind'; [|intros; win; discriminate].
          apply at_bind; [exact Cq|]. intros _. unfold set_escapes. apply at_look. rewrite He.
          apply within_within_at, within_ret.
    - unfold run. win. }
  assert (K : ops_of Compare d = []) by (destruct (ops_of Compare d); [reflexivity|inversion F; contradiction]).
  split; [exact K|now apply no_ops].
Qed.

(** C62: when the program takes the target for a part of the source, the exit status of a
    backup without error tells *)
Theorem C62_recursion_reported : forall d c, e_recursion _ E = true ->
  status (snd (cmd Backup d)) = Some c -> N.testbit c 0 = false -> N.testbit c 1 = true.
Proof using.
  intros d c Hr Hs Hc.
  assert (NF : ~ failed (snd (cmd Backup d))) by (intros F; specialize (F c Hs); congruence).
  destruct (main_parts E o Backup d) as [[_ F]|(c0 & _ & H)]; [now destruct NF|].
  assert (W : wp (leave disk E Backup (work E o Backup c0)) (fun _ _ x => failed x \/ exists v, x = Val v /\ N.testbit v 1 = true) (mk_st d [] false)).
  { apply leave_wp.
    eapply wp_mono with (Q := fun _ _ x => failed x \/ exists v, x = Val v /\ N.testbit v 1 = true).
    2: { intros l s1 x _ K. split; [intros _; left; intros c' [=]|]. split; [auto|]. split; [auto|].
      intros _ _ _. cbv zeta. destruct (snd (e_eff _ E (s_ops s1) OpExit (s_disk s1))) as [v|b| |]; [exact K|left; intros c' [= <-]; reflexivity..]. }
    unfold work. apply wp_bind.
    eapply wp_mono with (Q := fun _ _ x => failed x \/ exists v, x = Val v /\ N.testbit v 1 = true).
    - assert (G : forall m : M disk N, within disk E (fun _ => True) m -> forall s, exists l x s', wp m (fun l' s'' y => l' = l /\ s'' = s' /\ y = x) s).
      { intros m Hw s. destruct (Hw s) as (l & A & B). exists l, (snd (m s)), (fst (m s)), l. auto. }
      unfold setup. apply wp_bind.
      destruct (G (read_dir_setup disk E)) with (s := mk_st d [] false) as (l1 & x1 & s1 & W1).
      { unfold read_dir_setup. win. apply within_abilities. auto. }
      eapply wp_mono; [exact W1|]. cbn beta. intros l' s' x' _ (-> & -> & ->).
      destruct x1 as [g|b| |]; try (left; intros c' [= <-]; reflexivity).
      unfold unless_err at 1. destruct (is_err g) eqn:Eg.
      { apply wp_ret. left. now apply failed_val. }
      apply wp_bind. destruct (G (repo_setup disk E o Backup true)) with (s := s1) as (l2 & x2 & s2 & W2).
      { apply within_repo_setup; auto 12. }
      eapply wp_mono; [exact W2|]. cbn beta. intros l'' s'' x'' _ (-> & -> & ->).
      destruct x2 as [g2|b| |]; try (left; intros c' [= <-]; reflexivity).
      unfold unless_err. destruct (is_err g2) eqn:Eg2; apply wp_ret.
      + left. now apply failed_val.
      + right. eexists. split; [reflexivity|]. rewrite Hr, N.lor_spec. apply orb_true_r.
    - cbn beta. intros l s' x _ K. destruct x as [g|b| |]; try (left; intros c' [= <-]; reflexivity).
      unfold unless_err. destruct (is_err (N.lor c0 g)) eqn:Eg.
      { apply wp_ret. left. now apply failed_val. }
      destruct K as [K|(v & [= <-] & K)].
      { exfalso. specialize (K g eq_refl). rewrite is_err_lor, (is_err_bit g), K, orb_true_r in Eg. discriminate. }
      apply wp_bind. destruct (within_run E o Backup s') as (l2 & R2 & _). exists l2. split; [exact R2|].
      destruct (snd (run disk E o Backup s')) as [g'|b| |]; try (left; intros c' [= <-]; reflexivity).
      apply wp_ret. right. eexists. split; [reflexivity|]. rewrite !N.lor_spec, K, orb_true_r. reflexivity. }
  destruct W as (l & _ & K). cbn beta in K. rewrite <- H in K.
  destruct K as [K|(v & K & B)]; [now destruct NF|]. rewrite K in Hs. injection Hs as <-. exact B.
Qed.
End P.

(** the path with the given components *)
Fixpoint path_of (l : list bytes) : bytes :=
  match l with [] => [] | x :: l' => bs "/" ++ x ++ path_of l' end.

Lemma beq_iff a b : beq a b = true <-> a = b.
Proof. unfold beq. destruct (list_eq_dec Ascii.ascii_dec a b); split; congruence. Qed.

(** C62: exactly the targets below the source are reported, whatever the names of the
    directories *)
Theorem C62_targets_below_reported : forall src tgt,
  (forall x, In x (src ++ tgt) -> x <> [] /\ ~ In "/"%char x) -> src <> [] ->
  warn_recursion true (path_of src) (path_of tgt) = true <->
  exists x rest, tgt = src ++ x :: rest.
Proof.
  intros src tgt Hn _.
  assert (B : forall src tgt : list bytes, (forall x, In x (src ++ tgt) -> x <> [] /\ ~ In "/"%char x) ->
    (exists z, path_of tgt = path_of src ++ bs "/" ++ z) -> exists x rest, tgt = src ++ x :: rest).
  { clear. intros src; induction src as [|x src IH]; intros tgt Hn (z & H).
    - destruct tgt as [|y tgt]; [discriminate H|]. exists y, tgt. reflexivity.
    - destruct tgt as [|y tgt]; [discriminate H|]. cbn [path_of app] in H. injection H as H.
      change ("/"%char :: z) with (bs "/" ++ z) in H. 
      assert (Hx : x = y /\ path_of tgt = path_of src ++ bs "/" ++ z).
      { assert (Hx : x <> [] /\ ~ In "/"%char x) by (apply Hn; now left).
        assert (Hy : y <> [] /\ ~ In "/"%char y) by (apply Hn, in_or_app; right; now left).
        rewrite <- app_assoc in H.
        assert (T : exists r, path_of src ++ bs "/" ++ z = "/"%char :: r).
        { destruct src; cbn; eauto. }
        destruct T as [r T].
        assert (C : path_of tgt = [] \/ exists r', path_of tgt = "/"%char :: r') by (destruct tgt; cbn; eauto).
        rewrite T in H |- *. clear T.
        clear IH Hn. destruct Hx as [_ Hx], Hy as [_ Hy]. revert y Hy H.
        induction x as [|a x IHx]; intros y Hy H.
        - destruct y as [|b y]; [split; [reflexivity|exact H]|]. exfalso. injection H as -> _. apply Hy. now left.
        - destruct y as [|b y].
          + exfalso. cbn in H. destruct C as [C|[r' C]]; rewrite C in H; [discriminate H|].
            injection H as <- _. apply Hx. now left.
          + cbn [app] in H. injection H as <- H. destruct (IHx) with (y := y) as [-> K]; auto.
            * intros K. apply Hx. now right.
            * intros K. apply Hy. now right. }
      destruct Hx as [<- Hx]. destruct (IH tgt) as (u & v & ->).
      + intros w Hw. apply Hn. apply in_app_or in Hw. apply in_or_app. destruct Hw as [Hw|Hw]; [left; now right|right; now right].
      + exists z. exact Hx.
      + exists u, v. reflexivity. }
  unfold warn_recursion. cbn [negb].
  assert (P : forall a b : list bytes, path_of (a ++ b) = path_of a ++ path_of b).
  { intros a; induction a as [|x a IH]; intros b; [reflexivity|]. cbn [app path_of]. rewrite IH, !app_assoc. reflexivity. }
  split.
  - destruct (length (path_of tgt) <=? length (path_of src) + 1)%nat; [discriminate|]. rewrite beq_iff. intros H.
    apply B; [exact Hn|]. exists (skipn (length (path_of src) + 1) (path_of tgt)).
    rewrite app_assoc, <- H. symmetry. apply firstn_skipn.
  - intros (x & rest & ->). rewrite P. cbn [path_of].
    assert (Hx : x <> []) by (apply Hn; apply in_or_app; right; apply in_or_app; right; now left).
    destruct (Nat.leb_spec (length (path_of src ++ bs "/" ++ x ++ path_of rest)) (length (path_of src) + 1)) as [L|L].
    + exfalso. rewrite !app_length in L. destruct x; [congruence|]. cbn in L. lia.
    + apply beq_iff. rewrite app_assoc, firstn_app, app_length. change (length (bs "/")) with 1%nat.
      rewrite Nat.sub_diag. cbn [firstn]. rewrite app_nil_r. apply firstn_all2. rewrite app_length. cbn. lia.
Qed.
(** exception: with the root directory as source (path "/") nothing is reported *)
Theorem C62_root_refuted : forall tgt, tgt <> [] ->
  (forall x, In x tgt -> x <> [] /\ ~ In "/"%char x) ->
  warn_recursion true (bs "/") (path_of tgt) = false.
Proof.
  intros tgt Hn Hx. unfold warn_recursion. cbn [negb].
  destruct (Nat.leb_spec (length (path_of tgt)) (length (bs "/") + 1)) as [L|L]; [reflexivity|].
  destruct (beq _ _) eqn:B; [|reflexivity]. apply beq_iff in B. destruct tgt as [|x tgt]; [congruence|].
  destruct (Hx x) as [H1 H2]; [now left|]. destruct x as [|c x]; [congruence|]. cbn in B. injection B as ->.
  exfalso. apply H2. now left.
Qed.

Print Assumptions C61_lock_given_up.
Print Assumptions C58_repository_not_cleared.
Print Assumptions C59_compare_writes_nothing.
Print Assumptions C62_recursion_reported.
Print Assumptions C62_targets_below_reported.
Print Assumptions C62_root_refuted.
