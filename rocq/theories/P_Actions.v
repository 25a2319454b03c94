(** * C57, C58, C59: what commands change *)
From Coq Require Import List NArith ZArith Bool Lia.
From Verif Require Import Base M_Actions S_Actions L_Actions.
Import ListNotations.
Local Open Scope N_scope.

Section P.
Context {disk : Type}.
Variable E : env disk.
Variable o : opts.
Notation cmd a d := (command disk E o a d).
Notation ops_of a d := (s_ops (fst (cmd a d))).

Lemma is_err_bit_true c : is_err c = true -> N.testbit c 0 = true.
Proof using. now rewrite is_err_bit. Qed.
Lemma failed_val c : is_err c = true -> failed (Val c).
Proof using. intros H c' [= <-]. now apply is_err_bit_true. Qed.

(** a failed check ends the command *)
Lemma by_check a d : is_err (check disk E o a (e_view _ E d)) = true ->
  fst (cmd a d) = mk_st d [] false /\ failed (snd (cmd a d)).
Proof using.
  intros H. unfold command, main_run, unless_err.
  destruct (is_err (e_system _ E)) eqn:E1; [cbn; auto using failed_val|].
  destruct (is_err (N.lor _ _)) eqn:E2; [cbn; auto using failed_val|].
  unfold bind at 1, stop at 1. destruct (e_conn _ E) as [[]|b| |]; cbn [fst snd negb];
    try (split; [reflexivity|intros c [= <-]; reflexivity]).
  unfold bind at 1.
  assert (K : forall s, s = mk_st d [] false ->
    fst (leave disk E a (in_with disk E o a (N.lor (e_system _ E) (pre_check _ E o a))) s) = s /\
    failed (snd (leave disk E a (in_with disk E o a (N.lor (e_system _ E) (pre_check _ E o a))) s))).
  { intros s ->. set (c := N.lor (e_system _ E) (pre_check _ E o a)).
    assert (X : is_err (N.lor c (check disk E o a (e_view disk E d))) = true)
      by now rewrite is_err_lor, H, orb_true_r.
    unfold leave, in_with, bind, look, unless_err. cbn [s_disk]. rewrite X. cbn.
    split; [reflexivity|now apply failed_val]. }
  destruct (has_repo a); [unfold stop; destruct (e_init _ E) as [u|b| |]|]; cbn [fst snd ret];
    try (split; [reflexivity|intros c [= <-]; reflexivity]);
    try (split; [reflexivity|intros c W; discriminate W]);
    apply K; reflexivity.
Qed.
Lemma by_pre_check a d : is_err (pre_check _ E o a) = true \/ e_conn _ E = Val false ->
  fst (cmd a d) = mk_st d [] false /\ failed (snd (cmd a d)).
Proof using.
  intros H. unfold command, main_run, unless_err.
  destruct (is_err (e_system _ E)) eqn:E1; [cbn; auto using failed_val|].
  destruct (is_err (N.lor _ _)) eqn:E2; [cbn; auto using failed_val|].
  rewrite is_err_lor in E2. apply orb_false_iff in E2 as [_ E2].
  destruct H as [H|H]; [congruence|]. unfold bind at 1, stop at 1. rewrite H. cbn.
  split; [reflexivity|intros c [= <-]; reflexivity].
Qed.

(** C57: a command for which there is a reason of refusal changes nothing and says that it
    failed *)
Theorem C57_refused_command_changes_nothing : forall a d,
  refusal disk E o a d ->
  s_ops (fst (cmd a d)) = [] /\ s_disk (fst (cmd a d)) = d /\ failed (snd (cmd a d)).
Proof using.
  intros a d R.
  assert (K : fst (cmd a d) = mk_st d [] false /\ failed (snd (cmd a d))); [|destruct K as [-> K]; auto].
  destruct R.
  - apply by_pre_check; auto.
  - apply by_pre_check. left. unfold pre_check. rewrite H1, H2. cbn [negb andb].
    destruct a; try congruence; rewrite ?is_err_lor, ?orb_true_r; reflexivity.
  - apply by_check. unfold check, loc_check, is_existing. destruct H as [-> | ->];
      destruct (v_kind _ LDir); try congruence; rewrite ?is_err_lor; cbn; reflexivity.
  - apply by_check.
    assert (W : is_existing LRepo (e_view _ E d) = false)
      by (unfold is_existing; destruct (v_kind _ _), (v_data _); cbn; intuition congruence).
    destruct H as [-> |[-> |[-> |[-> |[-> |[-> |[-> | ->]]]]]]]; unfold check, loc_check; rewrite W;
      rewrite ?is_err_lor; cbn [andb negb is_err]; rewrite ?orb_true_r; reflexivity.
  - apply by_check. destruct H0 as [[-> H0]|[-> H0]]; unfold check, write_dir_check, loc_check, is_writable;
      rewrite H0, H; rewrite ?is_err_lor; cbn; rewrite ?orb_true_r; reflexivity.
  - subst. apply by_check. unfold check, loc_check at 2, is_writable. rewrite H1, H2, H3, H0.
    rewrite ?is_err_lor. cbn. now rewrite ?orb_true_r.
  - subst. apply by_check. unfold check, write_dir_check. rewrite H1, H2, H0.
    rewrite ?is_err_lor. cbn. now rewrite ?orb_true_r.
  - subst. apply by_check. unfold check. rewrite H0, H1. rewrite ?is_err_lor. cbn. now rewrite ?orb_true_r.
  - subst. apply by_check. unfold check. rewrite H0, H1. rewrite ?is_err_lor. cbn. now rewrite ?orb_true_r.
  - subst. apply by_check. unfold check. rewrite H0, H1. rewrite ?is_err_lor. cbn. now rewrite ?orb_true_r.
  - subst. apply by_check. unfold check. rewrite H0. rewrite ?is_err_lor. cbn. now rewrite ?orb_true_r.
  - subst. apply by_check. unfold check. rewrite H0. rewrite ?is_err_lor. cbn. now rewrite ?orb_true_r.
Qed.

(** ** Which operations a command may call *)
Definition may (a : action) (p : op) : Prop :=
  (match p with OpDelete _ => o_force o = true | _ => True end) /\
  match a with
  | Backup => place p = LRepo /\ p <> OpFake /\ p <> OpRemoveIncs /\ p <> OpRemoveFile
  | Restore => place p = LDir
  | Compare => p = OpSetQuote \/ p = OpSetEscapes
  | Regress => place p = LRepo /\ p <> OpApply
  | RemoveIncrements => place p = LRepo /\ p <> OpApply /\ p <> OpRegress
  | RemoveFile => place p = LRepo /\ p <> OpApply /\ p <> OpRegress
  | _ => False
  end.

Ltac dn := unfold may; cbn; intuition (congruence || discriminate || eauto).
Lemma within_setup a : within disk E (may a) (setup disk E o a).
Proof using.
  destruct a; unfold setup, read_dir_setup; win;
    try (apply within_abilities; discriminate);
    try (apply within_repo_setup; [intros e; try discriminate e; dn|intros e; try discriminate e; dn]).
  - apply within_write_dir; dn.
  - destruct (o_at o || negb (e_ref_inc disk E)); win.
Qed.
Lemma within_regress (P : op -> Prop) t f : (t = true -> P OpRegress) -> (f = true -> P OpFake /\ P OpRegress) ->
  within disk E P (operate_regress disk E t f).
Proof using.
  intros H K. unfold operate_regress. win. destruct a.
  - destruct f; win; [now apply within_act, K|]. destruct a0; win. now apply within_act, K.
  - destruct t; win. now apply within_act; auto.
Qed.
Lemma within_run a : within disk E (may a) (run disk E o a).
Proof using.
  destruct a; unfold run; win; try (apply within_act; dn).
  - apply within_regress; [intros _; dn|discriminate].
  - destruct ((a0 <? 0)%Z || (o_now o <=? a0)%Z); win. unfold operate_backup. win; try (apply within_act; dn).
    destruct (a0 =? 0)%Z; apply within_act; dn.
  - apply within_regress; discriminate.
  - apply within_regress; intros _; dn.
Qed.
Lemma leave_wp a m (Q : list op -> M_Actions.st disk -> out N -> Prop) s :
  wp disk E m (fun l s1 x =>
    (x = Killed -> Q l s1 Killed) /\
    (x <> Killed -> s_lock s1 = false -> Q l s1 x) /\
    (x <> Killed -> s_lock s1 = true -> mw a = false -> Q l (mk_st (s_disk s1) (s_ops s1) false) x) /\
    (x <> Killed -> s_lock s1 = true -> mw a = true ->
       let e := e_eff _ E (s_ops s1) OpExit (s_disk s1) in
       match snd e with
       | Val _ => Q (l ++ [OpExit]) (mk_st (fst e) (s_ops s1 ++ [OpExit]) false) x
       | y => Q (l ++ [OpExit]) (mk_st (fst e) (s_ops s1 ++ [OpExit]) true) y
       end)) s ->
  wp disk E (leave disk E a m) Q s.
Proof using.
  intros (l & H & K1 & K2 & K3 & K4). unfold wp, leave. destruct (m s) as [s1 x]. cbn [fst snd] in *.
  assert (X : x = Killed \/ x <> Killed) by (destruct x; (now left) || (right; discriminate)).
  destruct X as [-> |X]; [exists l; auto|].
  assert (Y : exists l0, run_to disk E s l0 (fst
      (if s_lock s1 then
         let (s2, y) := (if mw a then act disk E OpExit else ret disk OK) s1 in
         match y with
         | Val _ => (mk_st (s_disk s2) (s_ops s2) false, x)
         | Exc b => (s2, Exc b) | Quit => (s2, Quit) | Killed => (s2, Killed)
         end
       else (s1, x))) /\
      Q l0 (fst (if s_lock s1 then
         let (s2, y) := (if mw a then act disk E OpExit else ret disk OK) s1 in
         match y with
         | Val _ => (mk_st (s_disk s2) (s_ops s2) false, x)
         | Exc b => (s2, Exc b) | Quit => (s2, Quit) | Killed => (s2, Killed)
         end
       else (s1, x))) (snd (if s_lock s1 then
         let (s2, y) := (if mw a then act disk E OpExit else ret disk OK) s1 in
         match y with
         | Val _ => (mk_st (s_disk s2) (s_ops s2) false, x)
         | Exc b => (s2, Exc b) | Quit => (s2, Quit) | Killed => (s2, Killed)
         end
       else (s1, x)))); [|destruct x; try congruence; exact Y].
  destruct (s_lock s1) eqn:L; [|exists l; auto].
  destruct (mw a); [|exists l; cbn; split; [destruct H as [H1 H2]; now split|auto]].
  specialize (K4 X eq_refl eq_refl). cbv zeta in K4. unfold act. rewrite L.
  destruct (e_eff _ E (s_ops s1) OpExit (s_disk s1)) as [d y] eqn:Ee. cbn [fst snd] in *.
  exists (l ++ [OpExit]).
  assert (R : forall b, run_to disk E s (l ++ [OpExit]) (mk_st d (s_ops s1 ++ [OpExit]) b)).
  { intros b. apply (run_to_app disk E s l s1 [OpExit]); [exact H|].
    split; cbn [s_ops s_disk replay]; [reflexivity|now rewrite Ee]. }
  destruct y; cbn [fst snd s_disk s_ops]; split; auto.
Qed.
Lemma within_leave (P : op -> Prop) a m : (mw a = true -> P OpExit) -> within disk E P m ->
  within disk E P (leave disk E a m).
Proof using.
  intros H K s. apply leave_wp. eapply wp_mono; [apply K|]. cbn beta. intros l s1 x _ F.
  repeat split; auto. intros _ _ Hw. cbv zeta.
  assert (Forall P (l ++ [OpExit])) by (apply Forall_app; auto).
  destruct (snd _); auto.
Qed.
Lemma within_main a : within disk E (may a) (main_run disk E o a).
Proof using.
  unfold main_run. win. destruct (negb a0); win.
  - destruct (has_repo a); win.
  - apply within_leave; [destruct a; try discriminate; intros _; dn|].
    unfold in_with. win; auto using within_setup, within_run.
Qed.
Lemma cmd_ops a d : exists l, run_to disk E (mk_st d [] false) l (fst (cmd a d)) /\ Forall (may a) l.
Proof using. destruct (within_main a (mk_st d [] false)) as (l & H & K). exists l. auto. Qed.
Lemma ops_may a d p : In p (ops_of a d) -> may a p.
Proof using.
  destruct (cmd_ops a d) as (l & [H _] & K). cbn in H. rewrite H. intros I.
  rewrite Forall_forall in K. auto.
Qed.
Lemma no_ops a d : ops_of a d = [] -> s_disk (fst (cmd a d)) = d.
Proof using.
  destruct (cmd_ops a d) as (l & [H K] & _). cbn in H, K. rewrite H. intros ->. exact K.
Qed.

(** ** C58 *)
(** without --force nothing is deleted to make place for a repository or a restored
    directory, a backup writes into a new or empty directory or a repository only, and a
    restore into a new or empty directory only *)
Theorem C58_without_force_nothing_overwritten : forall a d,
  o_force o = false ->
  (forall l, ~ In (OpDelete l) (ops_of a d)) /\
  (a = Backup -> ops_of a d <> [] ->
     v_kind (e_view _ E d) LRepo = KNone \/
     v_kind (e_view _ E d) LRepo = KDir /\
       (v_empty (e_view _ E d) LRepo = true \/ v_data (e_view _ E d) <> KNone)) /\
  (a = Restore -> ops_of a d <> [] ->
     v_kind (e_view _ E d) LDir = KNone \/
     v_kind (e_view _ E d) LDir = KDir /\ v_empty (e_view _ E d) LDir = true).
Proof using.
  intros a d F. repeat split.
  - intros l I. apply ops_may in I. destruct I as [I _]. congruence.
  - intros -> N. assert (R : ~ refusal disk E o Backup d) by (intros R; now apply C57_refused_command_changes_nothing in R).
    destruct (v_kind (e_view _ E d) LRepo) eqn:K1; auto.
    + exfalso. apply R. apply Target_not_directory; auto.
    + destruct (v_empty (e_view _ E d) LRepo) eqn:K2; auto.
      destruct (v_data (e_view _ E d)) eqn:K3; try (right; split; [reflexivity|right; discriminate]).
      exfalso. apply R. now apply Target_not_repository.
  - intros -> N. assert (R : ~ refusal disk E o Restore d) by (intros R; now apply C57_refused_command_changes_nothing in R).
    destruct (v_kind (e_view _ E d) LDir) eqn:K1; auto.
    + exfalso. apply R. apply Target_not_directory; auto.
    + destruct (v_empty (e_view _ E d) LDir) eqn:K2; auto.
      exfalso. apply R. now apply Target_not_empty.
Qed.

(** the source of a backup and the repository of a restore are not written to; no command
    deletes, creates or tests anything but its target *)
Theorem C58_only_the_target_written : forall a d p, In p (ops_of a d) ->
  (a = Restore -> place p = LDir) /\ (a <> Restore -> place p = LRepo).
Proof using.
  intros a d p I. apply ops_may in I. destruct I as [_ I]. split; intros N.
  - subst. exact I.
  - destruct a; try congruence; try tauto. destruct I as [-> | ->]; reflexivity.
Qed.

(** ** C59 *)
Theorem C59_reading_commands_write_nothing : forall a d, reads_only a ->
  ops_of a d = [] /\ s_disk (fst (cmd a d)) = d.
Proof using.
  intros a d R.
  assert (K : ops_of a d = []).
  { destruct (ops_of a d) as [|p l] eqn:K; [reflexivity|].
    assert (I : may a p) by (apply (ops_may a d); rewrite K; now left).
    destruct I as [_ I]. destruct R as [-> |[-> |[-> |[-> |[-> |[-> | ->]]]]]]; destruct I. }
  split; [exact K|now apply no_ops].
Qed.

(** compare writes nothing but the configuration of the repository *)
Theorem C59_compare_writes_configuration_only : forall d p,
  In p (ops_of Compare d) -> p = OpSetQuote \/ p = OpSetEscapes.
Proof using. intros d p I. apply ops_may in I. apply I. Qed.
End P.

Print Assumptions C57_refused_command_changes_nothing.
Print Assumptions C58_without_force_nothing_overwritten.
Print Assumptions C58_only_the_target_written.
Print Assumptions C59_reading_commands_write_nothing.
Print Assumptions C59_compare_writes_configuration_only.
