(** * C67 Recoverable errors are counted and recorded; C68 messages reach their places *)
From Coq Require Import List Arith Bool Ascii ZArith Lia.
From Verif Require Import Base L_Base M_Security M_Log S_Log L_Log.
Import List ListNotations.

(** ** C67 *)

(** However many processes take part and however they are restricted, a backup session
    gets under way, survives all errors of the recoverable kind met by the process
    writing the repository, and at the end its counter tells their number and its error
    log has one entry for each, in order. *)
Theorem C67_errors_recorded : forall stamp w j l p, Forall fresh w -> nth_error w j = Some p -> Forall (fine w j) l ->
  exists w1 w2 p2, session_start w j true = Some w1 /\ session stamp w1 l = Some w2 /\ nth_error w2 j = Some p2 /\
    p_errors p2 = p_errors p + list_sum (map counts l) /\
    p_elog p2 = p_elog p ++ flat_map (entry (p_null p)) (flat_map errors_of l).
Proof.
  intros stamp w j l p F Hp Hl. destruct (whole_session stamp w j l p F Hp Hl) as (w1 & w2 & A & B & _ & D).
  exists w1, w2. eexists. split; [auto|]. split; [auto|]. split; [apply (D j p Hp)|].
  rewrite Nat.eqb_refl. unfold grown. cbn. auto.
Qed.

(** When everything is local there is no other process, so that nothing is left out. *)
Theorem C67_local : forall stamp p l, fresh p ->
  (forall e, In e l -> exists rt tb h, e = ETrouble 0 (Raised true rt tb h)) ->
  exists w1 p2, session_start [p] 0 true = Some w1 /\ session stamp w1 l = Some [p2] /\
    p_errors p2 = p_errors p + length l /\
    p_elog p2 = p_elog p ++ flat_map (entry (p_null p)) (flat_map errors_of l).
Proof.
  intros stamp p l F Hl.
  assert (Fl : Forall (fine [p] 0) l).
  { apply Forall_forall. intros e He. destruct (Hl e He) as (rt & tb & h & ->). cbn. auto. }
  destruct (whole_session stamp [p] 0 l p (Forall_cons p F (Forall_nil _)) eq_refl Fl) as (w1 & w2 & A & B & L & D).
  assert (D0 := D 0 p eq_refl). destruct w2 as [|p2 [|? ?]]; try discriminate.
  exists w1, p2. split; auto. split; auto. cbn [nth_error] in D0. inversion D0; subst p2. cbn. split; auto.
  f_equal. clear - Hl. induction l as [|e l IH]; auto. destruct (Hl e (or_introl eq_refl)) as (rt & tb & h & ->).
  cbn [map counts list_sum fold_right length]. change (fold_right plus 0 (map counts l)) with (list_sum (map counts l)).
  rewrite IH; auto. intros e He. apply Hl. right. auto.
Qed.

(** Read back line by line, the error log gives one line for each error, whatever the
    names of the files and the texts of the exceptions contain... *)
Theorem C67_one_line_each : forall es,
  split_on nl (flat_map (entry false) es) = map (fun x => spaced (err_string x)) es ++ [[]].
Proof.
  induction es as [|x es IH]; cbn [flat_map map app]; auto.
  unfold entry at 1. rewrite <- app_assoc. cbn [app]. rewrite split_on_app by apply spaced_no_nl. rewrite IH. reflexivity.
Qed.
(** ... and with the null separator the very texts, since neither names nor messages
    contain a null character. *)
Theorem C67_null_separated : forall es, (forall x, In x es -> mem_byte (chr 0) (err_string x) = false) ->
  split_on (chr 0) (flat_map (entry true) es) = map err_string es ++ [[]].
Proof.
  induction es as [|x es IH]; intros H; cbn [flat_map map app]; auto.
  unfold entry at 1. rewrite <- app_assoc. cbn [app]. rewrite split_on_app by (apply H; left; auto).
  rewrite IH; auto. intros y Hy. apply H. right. auto.
Qed.
(** Without newline in it, the line is the very text. *)
Theorem C67_text_kept : forall x, mem_byte nl (err_string x) = false -> spaced (err_string x) = err_string x.
Proof.
  intro x. generalize (err_string x) as s. induction s as [|c s IH]; cbn [mem_byte]; intro H; auto.
  apply orb_false_iff in H. destruct H as [H1 H2]. unfold spaced. cbn [map]. rewrite Ascii.eqb_sym in H1. rewrite H1.
  f_equal. apply IH; auto.
Qed.

(** But: any error of the recoverable kind in another process than the writer ends the
    session, because the writer refuses the request to count it (Security.py lists
    "sstats.SessionsStats.add_error_local", the request is
    "sstats.SessionStats.add_error_local"), unless the writer obeys to everything. *)
Lemma add_error_refused : forall tmp cl lv rdir pairs s args, initialize tmp cl lv rdir pairs = Some s ->
  s_level s <> LOverride -> vet_request s (bs "sstats.SessionStats.add_error_local") args <> VAccept.
Proof.
  intros tmp cl lv rdir pairs s args H Hl. unfold initialize in H.
  destruct (set_security_level tmp cl lv rdir pairs) as [[lv' rdir']|]; [|discriminate].
  assert (A : s_allowed s = allowed_requests cl lv').
  { destruct rdir' as [[|c r]|]; inversion H; reflexivity. }
  assert (N : mem_bytes (bs "sstats.SessionStats.add_error_local") (s_allowed s) = false).
  { rewrite A. destruct cl, lv'; vm_compute; reflexivity. }
  unfold vet_request. rewrite N.
  destruct (s_level s); try congruence; destruct (vet_paths s (bs "sstats.SessionStats.add_error_local") args); discriminate.
Qed.

Theorem C67_other_side_refuted : forall stamp w j i p w1 rt tb h, Forall fresh w -> nth_error w j = Some p ->
  s_level (p_sec p) <> LOverride -> i <> j -> session_start w j true = Some w1 ->
  session stamp w1 [ETrouble i (Raised true rt tb h)] = None.
Proof.
  intros stamp w j i p w1 rt tb h F Hp Hl Hi H1. assert (Hj : j < length w) by (apply nth_error_Some; congruence).
  destruct (start_ready w w1 j F Hj H1) as (R & L & C).
  cbn [session happen meet]. destruct (log_exception stamp w1 i false V_INFO tb) as [w2|] eqn:E; auto.
  replace (count_error w2 i) with (@None world); auto. symmetry.
  assert (B : exists a t, becomes w1 w2 a (fun _ => []) (fun _ => 0) t).
  { unfold log_exception in E. destruct (nth_error w1 i); [|discriminate]. cbn in E. eapply log_call_becomes; eauto. }
  destruct B as (a & t & B). assert (R2 := ready_becomes _ _ _ _ _ _ _ _ R B).
  unfold count_error. destruct (nth_error w2 i) as [q|] eqn:Eq; auto.
  destruct (proj2 (proj2 R2) i q Eq) as (Hw & Hb & _). rewrite Hw, Hb. apply Nat.eqb_neq in Hi. rewrite Hi.
  replace (call_ok w2 i j (bs "sstats.SessionStats.add_error_local") []) with false; auto. symmetry.
  unfold call_ok. rewrite Hi.
  assert (E1 : nth_error w1 j = Some (started j (0 <? file_v w j) j p)) by (rewrite C, Hp; auto).
  rewrite (proj2 B j _ E1). unfold accepts. cbn [grown started p_sec set_term set_errors set_elog set_log].
  rewrite Forall_forall in F. destruct (F p (nth_error_In _ _ Hp)) as (_ & _ & _ & _ & _ & _ & tmp & cl & lv & r & ps & Hin).
  assert (X := add_error_refused _ _ _ _ _ _ [] Hin Hl).
  destruct (vet_request (p_sec p) (bs "sstats.SessionStats.add_error_local") []); auto. congruence.
Qed.

(** And a file which changes while it is being read ends the session, wherever. *)
Theorem C67_changed_file_refuted : forall stamp w i l, session stamp w (ETrouble i Changed :: l) = None.
Proof. reflexivity. Qed.

(** ** C68 *)

(** The log file has the messages of all processes which their own verbosity for the
    file lets through, each once and in order; the terminal of each process has the
    messages of the process itself which its verbosity lets through, each once and in
    order, the errors and warnings on the stream for errors. *)
Theorem C68_messages_delivered : forall stamp w j l p, Forall fresh w -> nth_error w j = Some p -> Forall (fine w j) l ->
  exists w1 w2, session_start w j true = Some w1 /\ session stamp w1 l = Some w2 /\
    (exists p2, nth_error w2 j = Some p2 /\
       p_log p2 = p_log p ++ if 0 <? p_file_v p then flat_map (to_log stamp w (p_file_v p)) (flat_map (said w j) l) else []) /\
    (forall k q, nth_error w k = Some q -> exists q2, nth_error w2 k = Some q2 /\
       p_term q2 = p_term q ++ flat_map (to_term stamp w k) (flat_map (said w j) l) /\
       (k <> j -> p_log q2 = p_log q)).
Proof.
  intros stamp w j l p F Hp Hl. destruct (whole_session stamp w j l p F Hp Hl) as (w1 & w2 & A & B & _ & D).
  exists w1, w2. split; auto. split; auto. split.
  - eexists. split; [apply (D j p Hp)|]. rewrite Nat.eqb_refl. reflexivity.
  - intros k q Hq. eexists. split; [apply (D k q Hq)|]. split; [reflexivity|]. intro Hk. apply Nat.eqb_neq in Hk. rewrite Hk.
    cbn. rewrite app_nil_r. reflexivity.
Qed.

(** The log files can always be closed at the end of the session; then no process
    believes them open... *)
Lemma ready_close : forall w j lo, Ready w j lo -> exists w1 w2,
  close_elogfile w j = Some w1 /\ close_logfile w1 j = Some w2 /\
  length w2 = length w /\ forall k q, nth_error w2 k = Some q -> p_log_open q = false /\ p_elog_open q = false.
Proof.
  intros w j lo (Hj & Hv & Hr). unfold close_elogfile.
  destruct (nth_error w j) as [p|] eqn:Ep; [|apply nth_error_None in Ep; lia].
  destruct (Hr j p Ep) as (_ & _ & Ho & He & Hw). destruct (Hw eq_refl) as [Hw1 Hw2]. rewrite He.
  destruct (tell_others_spec (set_elog_open false) (bs "log.ErrorLog.close_logfile_local") [] j w) as (wa & A & B & C); auto.
  { intros w' Hl Hv' k Hk. apply call_minimal; auto; try lia. minimal. }
  rewrite A, Hw2.
  set (wb := upd wa j (fun p => set_elog_open false (set_elog_w false p))).
  assert (Lb : length wb = length w) by (unfold wb; rewrite upd_length; auto).
  assert (Cb : forall k, nth_error wb k = option_map (fun p => if Nat.eqb k j then set_elog_open false (set_elog_w false p) else set_elog_open false p) (nth_error w k)).
  { intro k. unfold wb. rewrite upd_nth, C, (Nat.eqb_sym j k). destruct (Nat.eqb k j); destruct (nth_error w k); reflexivity. }
  assert (Vb : all_vetted wb).
  { eapply mapped_vetted; [apply Hv| |apply Cb]. intros k q. cbn beta. destruct (Nat.eqb k j); reflexivity. }
  exists wb. unfold close_logfile. rewrite Cb, Ep. cbn [option_map]. rewrite Nat.eqb_refl. cbn [set_elog_open set_elog_w p_log_open p_log_w].
  rewrite Ho, Hw1.
  destruct lo.
  - destruct (tell_others_spec (set_log_open false) (bs "log.Log.close_logfile_local") [] j wb) as (wc & A3 & B3 & C3); auto.
    { intros w' Hl Hv' k Hk. apply call_minimal; auto; try lia. minimal. }
    rewrite A3. eexists. split; [reflexivity|]. split; [reflexivity|]. rewrite upd_length. split; [lia|].
    intros k q Hk. rewrite upd_nth, C3, Cb, (Nat.eqb_sym j k) in Hk.
    destruct (Nat.eqb k j); (destruct (nth_error w k) as [q0|] eqn:E0; [|discriminate]); inversion Hk; subst; auto.
  - exists wb. split; [reflexivity|]. split; [reflexivity|]. split; auto. intros k q Hk. rewrite Cb in Hk.
    destruct (nth_error w k) as [q0|] eqn:E0; [|discriminate]. destruct (Hr k q0 E0) as (_ & _ & Ho' & _).
    inversion Hk; subst. destruct (Nat.eqb k j); cbn; auto.
Qed.
Theorem C68_closed : forall stamp w j l w1 w2, Forall fresh w -> j < length w -> Forall (fine w1 j) l ->
  session_start w j true = Some w1 -> session stamp w1 l = Some w2 ->
  exists w3 w4, close_elogfile w2 j = Some w3 /\ close_logfile w3 j = Some w4 /\
    length w4 = length w /\ forall k q, nth_error w4 k = Some q -> p_log_open q = false /\ p_elog_open q = false.
Proof.
  intros stamp w j l w1 w2 F Hj Hl H1 H2. destruct (start_ready w w1 j F Hj H1) as (R & L & C).
  destruct (session_ok stamp l w1 j _ R Hl) as (w2' & X & Y). rewrite X in H2. inversion H2; subst w2'.
  assert (R2 := ready_becomes _ _ _ _ _ _ _ _ R Y). destruct (ready_close w2 j _ R2) as (w3 & w4 & A & B & D & E).
  exists w3, w4. repeat split; auto; try (eapply E; eauto). rewrite D, (proj1 Y). auto.
Qed.
(** ... and no message changes the log file any more. *)
Theorem C68_nothing_after_close : forall stamp w i m v w', (forall k q, nth_error w k = Some q -> p_log_open q = false) ->
  log_call stamp w i m v = Some w' -> forall k q, nth_error w k = Some q -> exists q', nth_error w' k = Some q' /\ p_log q' = p_log q.
Proof.
  intros stamp w i m v w' Hc H k q Hq. unfold log_call in H. destruct (nth_error w i) as [p|] eqn:Ep; [|discriminate].
  destruct ((p_file_v p <? v) && (p_term_v p <? v)); [inversion H; subst; eauto|].
  rewrite (Hc i p Ep), Bool.andb_false_r in H. destruct (v <=? p_term_v p); [|inversion H; subst; eauto].
  destruct (log_to_term_becomes _ _ _ _ _ _ H) as (t & B & _). eexists. split; [apply (proj2 B k q Hq)|]. cbn. apply app_nil_r.
Qed.

(** But: an action other than a backup which opens a log file never writes to it. *)
Theorem C68_other_actions_refuted : forall stamp w j l w1 w2, Forall fresh w -> j < length w ->
  session_start w j false = Some w1 -> (forall e, In e l -> exists i m v, e = EMsg i m v) ->
  session stamp w1 l = Some w2 ->
  forall k q, nth_error w k = Some q -> exists q2, nth_error w2 k = Some q2 /\ p_log q2 = p_log q.
Proof.
  intros stamp w j l w1 w2 F Hj H1 Hl H2.
  assert (P : forall k q, nth_error w k = Some q -> exists q1, nth_error w1 k = Some q1 /\ p_log q1 = p_log q /\ p_writer q1 = false /\ p_bw q1 = None).
  { assert (Hv := fresh_vetted w F). rewrite Forall_forall in F.
    assert (Fk : forall k p, nth_error w k = Some p -> fresh p) by (intros k p Hk; apply F; eapply nth_error_In; eauto).
    unfold session_start in H1. destruct (call_ok w 0 j (bs "_repo_shadow.RepoShadow.setup_finish") []); [|discriminate].
    unfold setup_logging in H1. destruct (nth_error w j) as [p|] eqn:Ep; [|discriminate].
    destruct (0 <? p_file_v p).
    - destruct (open_logfile_ok w j Hv Hj) as (w' & A & B & C).
      { intros p' Hp'. rewrite Ep in Hp'. inversion Hp'; subst. apply (Fk j p' Ep). }
      rewrite A in H1. inversion H1; subst w'. intros k q Hk. rewrite C, Hk. cbn [option_map].
      destruct (Fk k q Hk) as (W1 & W2 & _). eexists. split; [reflexivity|]. destruct (Nat.eqb k j); cbn; auto.
    - inversion H1; subst w1. intros k q Hk. destruct (Fk k q Hk) as (W1 & W2 & _). eauto. }
  assert (G : forall l wa wb, session stamp wa l = Some wb -> (forall e, In e l -> exists i m v, e = EMsg i m v) ->
    (forall k q, nth_error wa k = Some q -> p_writer q = false /\ p_bw q = None) ->
    forall k q, nth_error wa k = Some q -> exists q2, nth_error wb k = Some q2 /\ p_log q2 = p_log q).
  { clear. intro l. induction l as [|e l IH]; intros wa wb Hs Hl Hc k q Hk.
    - inversion Hs; subst. eauto.
    - cbn [session] in Hs. destruct (happen stamp wa e) as [wc|] eqn:E; [|discriminate].
      destruct (Hl e (or_introl eq_refl)) as (i & m & v & ->). cbn [happen] in E.
      assert (B : exists t, becomes wa wc (fun _ => []) (fun _ => []) (fun _ => 0) t).
      { unfold log_call in E. destruct (nth_error wa i) as [p|] eqn:Ep; [|discriminate]. destruct (Hc i p Ep) as [X Y]. rewrite X, Y in E.
        destruct ((p_file_v p <? v) && (p_term_v p <? v)); [inversion E; subst; eexists; apply becomes_refl|].
        destruct ((v <=? p_file_v p) && p_log_open p); (destruct (v <=? p_term_v p);
          [destruct (log_to_term_becomes _ _ _ _ _ _ E) as (t & B & _); eauto|inversion E; subst; eexists; apply becomes_refl]). }
      destruct B as (t & B).
      destruct (IH wc wb Hs (fun e H => Hl e (or_intror H))) with (k := k) (q := grown q [] [] 0 (t k)) as (q2 & A1 & A2).
      + intros k' q' Hk'. destruct (becomes_back _ _ _ _ _ _ _ _ B Hk') as (p & Hp & ->). apply (Hc k' p Hp).
      + apply (proj2 B k q Hk).
      + exists q2. split; auto. rewrite A2. cbn. apply app_nil_r. }
  intros k q Hk. destruct (P k q Hk) as (q1 & A1 & A2 & _).
  destruct (G l w1 w2 H2 Hl) with (k := k) (q := q1) as (q2 & B1 & B2); auto.
  - intros k' q' Hk'. assert (L : k' < length w1) by (apply nth_error_Some; congruence).
    destruct (nth_error w k') as [q0|] eqn:E0.
    + destruct (P k' q0 E0) as (q1' & C1 & _ & C2 & C3). rewrite C1 in Hk'. inversion Hk'; subst. auto.
    + exfalso. clear - E0 H1 L. apply nth_error_None in E0. assert (length w1 = length w); [|lia].
      unfold session_start in H1. destruct (call_ok w 0 j (bs "_repo_shadow.RepoShadow.setup_finish") []); [|discriminate].
      unfold setup_logging in H1. destruct (nth_error w j) as [p|]; [|discriminate].
      destruct (0 <? p_file_v p); [|inversion H1; auto].
      destruct (open_logfile w j) as [w'|] eqn:O; [|discriminate]. inversion H1; subst w'. unfold open_logfile in O.
      destruct (nth_error w j) as [p'|]; [|discriminate]. destruct (p_log_open p'); [discriminate|].
      assert (T : forall js wa wb i nm ar f, tell_from wa i nm ar f js = Some wb -> length wb = length wa).
      { clear. intros js. induction js as [|x js IH]; cbn; intros wa wb i nm ar f H; [inversion H; auto|].
        destruct (Nat.eqb i x); eauto. destruct (call_ok wa i x nm ar); [|discriminate]. apply IH in H. rewrite upd_length in H. auto. }
      apply T in O. rewrite upd_length in O. auto.
  - exists q2. split; auto. congruence.
Qed.

(** Both verbosities are set when both values are numbers from 0 to 9, and neither is
    changed otherwise. *)
Theorem C68_verbosity_all_or_nothing : forall stamp w i fv tv w' ok p, set_verbosity stamp w i fv tv = Some (w', ok) ->
  nth_error w i = Some p ->
  let t := match tv with Some x => x | None => fv end in
  let valid x := exists z, verb_value x = Some z /\ (0 <= z <= 9)%Z in
  (ok = true <-> (valid fv /\ valid t)) /\
  exists p', nth_error w' i = Some p' /\
    if ok then verb_value fv = Some (Z.of_nat (p_file_v p')) /\ verb_value t = Some (Z.of_nat (p_term_v p'))
    else p_file_v p' = p_file_v p /\ p_term_v p' = p_term_v p.
Proof.
  intros stamp w i fv tv w' ok p H Hp t valid. unfold set_verbosity in H.
  destruct (validate_verbosity stamp w i fv) as [[w1 r1]|] eqn:E1; [|discriminate].
  destruct (validate_becomes _ _ _ _ _ _ E1) as ((a1 & t1 & B1) & C1).
  destruct r1 as [n|].
  - destruct C1 as (D1 & D2 & ->). assert (V : valid fv) by (exists (Z.of_nat n); split; auto; lia).
    destruct tv as [x|]; subst t; cbv beta iota.
    + destruct (validate_verbosity stamp w i x) as [[w2 r2]|] eqn:E2; [|discriminate].
      destruct (validate_becomes _ _ _ _ _ _ E2) as ((a2 & t2 & B2) & C2). destruct r2 as [m|].
      * destruct C2 as (F1 & F2 & ->). inversion H; subst. split.
        { split; auto. intros _. split; auto. exists (Z.of_nat m). split; auto. lia. }
        rewrite upd_nth, Nat.eqb_refl, Hp. cbn. eexists. split; [reflexivity|]. cbn. auto.
      * inversion H; subst. split.
        { split; [discriminate|]. intros [_ (z & Z1 & Z2)]. exfalso. eapply C2; eauto. }
        eexists. split; [apply (proj2 B2 i p Hp)|]. auto.
    + inversion H; subst. split.
      { split; auto. }
      rewrite upd_nth, Nat.eqb_refl, Hp. cbn. eexists. split; [reflexivity|]. cbn. auto.
  - inversion H; subst. split.
    + split; [discriminate|]. intros [(z & Z1 & Z2) _]. exfalso. eapply C1; eauto.
    + eexists. split; [apply (proj2 B1 i p Hp)|]. auto.
Qed.

(** Logging what goes over a connection never causes traffic: it touches the terminal
    of its own process only. *)
Theorem C68_traffic_not_logged_remotely : forall stamp w i d r n w', log_conn stamp w i d r n = Some w' ->
  forall k q, nth_error w k = Some q -> exists t, nth_error w' k = Some (grown q [] [] 0 t) /\ (k <> i -> t = []).
Proof.
  intros stamp w i d r n w' H k q Hq. unfold log_conn in H. destruct (nth_error w i) as [p|]; [|discriminate].
  destruct (p_term_v p <=? V_DEBUG).
  - inversion H; subst. exists []. rewrite grown_nil. auto.
  - destruct (log_to_term_becomes _ _ _ _ _ _ H) as (t & B & T). exists (t k). split; [apply (proj2 B k q Hq)|]. auto.
Qed.

(** But: of an unexpected exception, without log file, the terminal shows nothing at the
    verbosity at which it shows the messages of the same importance. *)
Theorem C68_exception_hidden_refuted : forall stamp w i p v tb, nth_error w i = Some p -> p_log_open p = false ->
  p_term_v p = v -> known v ->
  log_exception stamp w i true v tb = Some w /\
  exists w' q t, log_call stamp w i (one_line p tb) v = Some w' /\ nth_error w' i = Some q /\ p_term q = p_term p ++ [t].
Proof.
  intros stamp w i p v tb Hp Ho Hv Kv. split.
  - unfold log_exception. rewrite Hp, Ho. cbn. rewrite Hv, Nat.leb_refl. reflexivity.
  - unfold log_call. rewrite Hp, Ho, Hv, Nat.leb_refl, Nat.ltb_irrefl, !Bool.andb_false_r.
    assert (Hi : i < length w) by (apply nth_error_Some; congruence).
    unfold log_to_term. rewrite Hp. destruct (format_known stamp (p_term_v p) v (one_line p tb) Kv) as (s & ->).
    eexists. eexists. eexists. split; [reflexivity|]. rewrite upd_nth, Nat.eqb_refl, Hp. cbn. split; reflexivity.
Qed.

(** What is written for a message is the message on lines of its own, with something before
    it which tells its importance; nothing at all before messages without one, and before
    tables, unless there are time stamps. *)
Theorem C68_text_of_messages : forall stamp verb v msg s, format_msg stamp verb v msg = Some s ->
  exists before, s = before ++ msg ++ [nl] /\
    (verb <= 8 -> v = 0 \/ (v = 5 /\ In nl (removelast msg)) -> before = []) /\
    (v = 1 -> exists a b, before = a ++ bs "ERROR:" ++ b) /\ (v = 2 -> exists a b, before = a ++ bs "WARNING:" ++ b) /\
    (8 < verb -> exists b, before = stamp ++ b).
Proof.
  intros stamp verb v msg s. unfold format_msg. change V_DEBUG with 8. change V_NONE with 0. change V_INFO with 5.
  destruct (Nat.leb_spec verb 8) as [L|L].
  - destruct ((v =? 0) || ((v =? 5) && preformatted msg)) eqn:E.
    + intros [= <-]. exists []. split; [reflexivity|]. split; [reflexivity|]. apply Bool.orb_true_iff in E. rewrite Bool.andb_true_iff in E.
      split; [intros ->; destruct E as [E|[E _]]; discriminate|]. split; [intros ->; destruct E as [E|[E _]]; discriminate|]. lia.
    + destruct (log_prefix v) as [pre|] eqn:P; [|discriminate]. intros [= <-]. exists (pad_right 9 pre). split; [reflexivity|].
      apply Bool.orb_false_iff in E. destruct E as [E1 E2]. split.
      * intros _ [-> | [-> H]]; [discriminate|]. cbn [Nat.eqb andb] in E2. unfold preformatted in E2. apply L_Base.mem_byte_In in H. congruence.
      * split; [intros ->|split; [intros ->|lia]]; injection P as <-; exists []; eexists; reflexivity.
  - destruct (log_prefix v) as [pre|] eqn:P; [|discriminate]. intros [= <-]. exists (stamp ++ bs "  " ++ pre ++ bs " ").
    split; [now rewrite <- !app_assoc|]. split; [lia|].
    split; [|split; [|intros _; eexists; reflexivity]]; intros ->; injection P as <-; exists (stamp ++ bs "  "); eexists; rewrite <- !app_assoc; reflexivity.
Qed.
Print Assumptions C68_text_of_messages.

(** An error met while there is no error log (no session, or not the backup action) is
    told on the terminal, on the stream for errors. *)
Theorem C67_without_log : forall stamp w i p e, nth_error w i = Some p ->
  p_elog_open p = false -> p_log_open p = false -> 2 <= p_term_v p ->
  exists w' q before, elog_call stamp w i e = Some w' /\ nth_error w' i = Some q /\
    p_term q = p_term p ++ [(true, before ++ err_string e ++ [nl])].
Proof.
  intros stamp w i p e Hp He Hl Ht. unfold elog_call. rewrite Hp, He. unfold log_call. rewrite Hp, Hl.
  change V_WARNING with 2. destruct (Nat.ltb_spec (p_term_v p) 2); [lia|]. rewrite !Bool.andb_false_r.
  destruct (Nat.leb_spec 2 (p_term_v p)); [|lia].
  unfold log_to_term. rewrite Hp.
  destruct (format_msg stamp (p_term_v p) 2 (err_string e)) as [t|] eqn:F.
  - destruct (C68_text_of_messages _ _ _ _ _ F) as (b & -> & _).
    exists (upd w i (set_term (p_term p ++ [(true, b ++ err_string e ++ [nl])]))).
    eexists. exists b. split; [reflexivity|]. rewrite upd_nth, Nat.eqb_refl, Hp. cbn. split; reflexivity.
  - unfold format_msg in F. cbn [log_prefix] in F. destruct (p_term_v p <=? V_DEBUG); [|discriminate]. now destruct (_ || _).
Qed.
Print Assumptions C67_without_log.
Example without_log_case : exists w' q before,
  elog_call [] [mk_proc false false None false false false 3 3 false (mk_sec LMinimal None [] false None false) false false [] [] 0 []] 0
    (mk_err (bs "ListError") (bs "a") (bs "no") AOther) = Some w' /\ nth_error w' 0 = Some q /\
  p_term q = [(true, before ++ bs "ListError: 'a' no" ++ [nl])].
Proof. eexists. eexists. exists (bs "WARNING: "). split; [vm_compute; reflexivity|]. split; reflexivity. Qed.

(** ** A concrete session: a client reading the source, a server writing the repository *)
Definition ex_sec (cl : sclass) (ps : list cmdpair) : sec :=
  match initialize (bs "/tmp") cl LReadWrite None ps with Some s => s | None => mk_sec LMinimal None [] false None false end.
Definition ex_pairs : list cmdpair := [mk_pair None (bs "/src"); mk_pair (Some (bs "ssh host rdiff-backup server")) (bs "/repo")].
Definition ex_proc (server : bool) (cl : sclass) (ps : list cmdpair) : proc :=
  mk_proc server false None false false false 3 3 false (ex_sec cl ps) false false [] [] 0 [].
Definition ex_world : world := [ex_proc false CBackup ex_pairs; ex_proc true CServer []].
Definition ex_err : err := mk_err (bs "UpdateError") (bs "a/b") (bs "no" ++ [nl] ++ bs "space") (ARPath true (bs "/repo") [bs "a"; bs "b"]).
Definition ex_events : list event :=
  [EMsg 0 (bs "hello") 3; ETrouble 1 (Raised true false (bs "trace") (HErr ex_err)); EMsg 1 (bs "fine point") 5].

Example ex_fresh : Forall fresh ex_world.
Proof.
  assert (A : fresh (ex_proc false CBackup ex_pairs)).
  { repeat split. exists (bs "/tmp"), CBackup, LReadWrite, None, ex_pairs. vm_compute. reflexivity. }
  assert (B : fresh (ex_proc true CServer [])).
  { repeat split. exists (bs "/tmp"), CServer, LReadWrite, None, []. vm_compute. reflexivity. }
  constructor; [|constructor]; auto.
Qed.
Example ex_fine : Forall (fine ex_world 1) ex_events.
Proof. repeat constructor; cbn; unfold known; cbn; auto; lia. Qed.
Definition ex_obs (o : option world) : option (list (bytes * bytes * nat * nat)) :=
  option_map (map (fun p => (p_log p, p_elog p, p_errors p, length (p_term p)))) o.
Example ex_run :
  ex_obs (match session_start ex_world 1 true with Some w => session [] w ex_events | None => None end)
  = Some [([], [], 0, 1);
          (bs "NOTE:    hello" ++ [nl] ++ bs "WARNING: UpdateError: 'a/b' no" ++ [nl] ++ bs "space" ++ [nl],
           bs "UpdateError: 'a/b' no space" ++ [nl], 1, 1)].
Proof. vm_compute. reflexivity. Qed.
Example ex_refuted :
  ex_obs (match session_start ex_world 1 true with
          | Some w => session [] w [ETrouble 0 (Raised true false (bs "trace") (HErr ex_err))] | None => None end) = None
  /\ s_level (ex_sec CServer []) <> LOverride.
Proof. split; [vm_compute; reflexivity|discriminate]. Qed.
Example ex_regress :
  match session_start ex_world 1 false with
  | Some w => match nth_error w 1 with Some p => (p_log_open p, p_log_w p) | None => (false, false) end
  | None => (false, false)
  end = (true, true)
  /\ ex_obs (match session_start ex_world 1 false with Some w => session [] w [EMsg 1 (bs "x") 1] | None => None end)
     = Some [([], [], 0, 0); ([], [], 0, 1)].
Proof. split; vm_compute; reflexivity. Qed.
Example ex_verb :
  ex_obs (option_map fst (set_verbosity [] ex_world 0 (VStr (bs "12")) None)) = Some [([], [], 0, 1); ([], [], 0, 0)]
  /\ option_map snd (set_verbosity [] ex_world 0 (VStr (bs "5")) (Some (VInt 9))) = Some true.
Proof. split; vm_compute; reflexivity. Qed.

Print Assumptions C67_errors_recorded.
Print Assumptions C67_local.
Print Assumptions C67_one_line_each.
Print Assumptions C67_null_separated.
Print Assumptions C67_text_kept.
Print Assumptions C67_other_side_refuted.
Print Assumptions C67_changed_file_refuted.
Print Assumptions C68_messages_delivered.
Print Assumptions C68_closed.
Print Assumptions C68_nothing_after_close.
Print Assumptions C68_other_actions_refuted.
Print Assumptions C68_verbosity_all_or_nothing.
Print Assumptions C68_traffic_not_logged_remotely.
Print Assumptions C68_exception_hidden_refuted.
