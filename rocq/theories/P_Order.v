(** * C60, C61: in which order commands work, and what their exit codes say *)
From Coq Require Import List NArith ZArith Bool Lia.
From Verif Require Import Base M_Actions S_Actions L_Actions P_Actions.
Import ListNotations.
Local Open Scope N_scope.

Section P.
Context {disk : Type}.
Variable E : env disk.
Variable o : opts.
Notation cmd a d := (command disk E o a d).
Notation ops_of a d := (s_ops (fst (cmd a d))).
Notation st := (M_Actions.st disk).
Notation wp := (wp disk E).
Notation replay := (replay disk E).
Notation follows := (follows disk E).
Notation locked := (locked disk E o).
Notation in_order := (in_order disk E).

(** ** The parts of a command *)
Definition work (a : action) (c : N) : M disk N :=
  bind disk (setup disk E o a) (fun g =>
    unless_err disk (N.lor c g) (bind disk (run disk E o a) (fun g' => ret disk (N.lor (N.lor c g) g')))).

Lemma main_parts a d :
  (fst (cmd a d) = mk_st d [] false /\ failed (snd (cmd a d))) \/
  exists c, is_err c = false /\ cmd a d = leave disk E a (work a c) (mk_st d [] false).
Proof using.
  destruct (is_err (check disk E o a (e_view _ E d))) eqn:Hc.
  { left. now apply by_check. }
  destruct (is_err (pre_check _ E o a)) eqn:Hp.
  { left. apply by_pre_check. auto. }
  unfold command, main_run, unless_err.
  destruct (is_err (e_system _ E)) eqn:E1; [left; cbn; auto using failed_val|].
  rewrite is_err_lor, E1, Hp. cbn [orb].
  unfold bind at 1 3, stop at 1 3. destruct (e_conn _ E) as [[]|b| |]; cbn [fst snd negb];
    try (left; split; [reflexivity|intros c [= <-]; reflexivity]).
  unfold bind at 1 3.
  assert (K : in_with disk E o a (N.lor (e_system _ E) (pre_check _ E o a)) (mk_st d [] false) =
    work a (N.lor (N.lor (e_system _ E) (pre_check _ E o a)) (check disk E o a (e_view _ E d))) (mk_st d [] false)).
  { unfold in_with, bind at 1, look, unless_err at 1. cbn [s_disk].
    rewrite !is_err_lor, E1, Hp, Hc. cbn [orb]. reflexivity. }
  assert (K' : leave disk E a (in_with disk E o a (N.lor (e_system _ E) (pre_check _ E o a))) (mk_st d [] false) =
    leave disk E a (work a (N.lor (N.lor (e_system _ E) (pre_check _ E o a)) (check disk E o a (e_view _ E d)))) (mk_st d [] false)).
  { unfold leave. now rewrite K. }
  assert (C : is_err (N.lor (N.lor (e_system _ E) (pre_check _ E o a)) (check disk E o a (e_view _ E d))) = false)
    by (rewrite !is_err_lor, E1, Hp, Hc; reflexivity).
  destruct (has_repo a); [unfold stop; destruct (e_init _ E) as [u|b| |]|]; cbn [fst snd ret];
    try (left; split; [reflexivity|intros c [= <-]; reflexivity]);
    (right; eexists; split; [exact C|exact K']).
Qed.

(** ** Setup *)
Lemma wp_lock w (Q : list op -> st -> out (option bool) -> Prop) s :
  (w = true ->
    let e := e_eff _ E (s_ops s) OpLock (s_disk s) in
    match snd e with
    | Val _ => let r := e_lock _ E (s_ops s ++ [OpLock]) (fst e) in
               Q [OpLock] (mk_st (fst e) (s_ops s ++ [OpLock]) (match r with Some true => true | _ => s_lock s end)) (Val r)
    | Exc b => Q [OpLock] (mk_st (fst e) (s_ops s ++ [OpLock]) (s_lock s)) (Exc b)
    | Quit => Q [OpLock] (mk_st (fst e) (s_ops s ++ [OpLock]) (s_lock s)) Quit
    | Killed => Q [OpLock] (mk_st (fst e) (s_ops s ++ [OpLock]) (s_lock s)) Killed
    end) ->
  (w = false -> let r := e_lock _ E (s_ops s) (s_disk s) in
     Q [] (mk_st (s_disk s) (s_ops s) (match r with Some true => true | _ => s_lock s end)) (Val r)) ->
  wp (lock disk E w) Q s.
Proof using.
  intros H K. unfold lock. apply wp_bind. destruct w.
  - specialize (H eq_refl). cbv zeta in H. apply wp_act. destruct (e_eff _ E (s_ops s) OpLock (s_disk s)) as [d x]. cbn [fst snd] in *.
    destruct x; auto. exists []. cbn. split; [split; cbn; [now rewrite app_nil_r|reflexivity]|exact H].
  - specialize (K eq_refl). cbv zeta in K. apply wp_ret. exists []. cbn. split; [split; cbn; [now rewrite app_nil_r|reflexivity]|exact K].
Qed.

Lemma shadow_setup_wp a s : mw a = true ->
  wp (shadow_setup disk E o a) (fun l s' x => Forall preparing l /\
    forall c, x = Val c -> is_err c = false ->
      exists l1, l = l1 ++ [OpLock] /\
        (o_force o = true \/ e_lock _ E (s_ops s ++ l1 ++ [OpLock]) (replay (s_ops s) (l1 ++ [OpLock]) (s_disk s)) <> Some false)) s.
Proof using.
  intros Hm. unfold shadow_setup. rewrite Hm. apply wp_bind.
  assert (W : within disk E preparing (create_repo disk E o)) by (apply within_create_repo; intros; exact I).
  eapply wp_mono; [apply W|]. cbn beta. intros l1 s1 x R1 F1.
  destruct x as [ok|b| |]; try (split; [exact F1|intros c K; discriminate K]).
  destruct (negb ok).
  { apply wp_ret. rewrite app_nil_r. split; [exact F1|]. intros c [= <-] K. discriminate K. }
  apply wp_bind, wp_look. destruct (check_time a && _).
  { apply wp_ret. rewrite !app_nil_r. split; [exact F1|]. intros c [= <-] K. discriminate K. }
  apply wp_bind, wp_lock; [|discriminate]. intros _. cbv zeta.
  assert (F2 : Forall preparing (l1 ++ [OpLock])) by (apply Forall_app; split; [exact F1|repeat constructor]).
  assert (D : fst (e_eff _ E (s_ops s1) OpLock (s_disk s1)) = replay (s_ops s) (l1 ++ [OpLock]) (s_disk s)).
  { destruct R1 as [-> ->]. rewrite replay_app. reflexivity. }
  assert (O : s_ops s1 ++ [OpLock] = s_ops s ++ l1 ++ [OpLock]) by (destruct R1 as [-> _]; now rewrite app_assoc).
  rewrite D, O.
  assert (G : (o_force o = true \/ e_lock _ E (s_ops s ++ l1 ++ [OpLock]) (replay (s_ops s) (l1 ++ [OpLock]) (s_disk s)) <> Some false) ->
     forall s2, wp (ask disk (e_misc _ E)) (fun l' _ y => Forall preparing (l1 ++ [] ++ [OpLock] ++ l') /\ forall c, y = Val c -> is_err c = false ->
        exists l0, l1 ++ [] ++ [OpLock] ++ l' = l0 ++ [OpLock] /\ (o_force o = true \/ e_lock _ E (s_ops s ++ l0 ++ [OpLock]) (replay (s_ops s) (l0 ++ [OpLock]) (s_disk s)) <> Some false)) s2).
  { intros K s2. apply wp_ask. cbn [app]. rewrite ?app_nil_r. split; [exact F2|]. intros c _ _. exists l1. auto. }
  destruct (snd _) as [v|b| |]; try (split; [exact F2|intros c K; discriminate K]).
  destruct (e_lock _ E (s_ops s ++ l1 ++ [OpLock]) _) as [[]|] eqn:El.
  - apply G. right. discriminate.
  - destruct (o_force o) eqn:Ef; [apply G; auto|].
    apply wp_ret. rewrite ?app_nil_r. split; [exact F2|]. intros c [= <-] K. discriminate K.
  - apply G. right. discriminate.
Qed.

Lemma repo_setup_wp a two s : mw a = true ->
  wp (repo_setup disk E o a two) (fun l s' x => Forall preparing l /\
    forall c, x = Val c -> is_err c = false ->
      exists l1 l2, l = l1 ++ OpLock :: l2 /\
        (o_force o = true \/ e_lock _ E (s_ops s ++ l1 ++ [OpLock]) (replay (s_ops s) (l1 ++ [OpLock]) (s_disk s)) <> Some false)) s.
Proof using.
  intros Hm. unfold repo_setup. apply wp_bind. eapply wp_mono; [now apply shadow_setup_wp|].
  cbn beta. intros l1 s1 x R1 [F1 K1].
  destruct x as [c0|b| |]; try (split; [exact F1|intros c K; discriminate K]).
  unfold unless_err at 1. destruct (is_err c0) eqn:Ec.
  { apply wp_ret. rewrite app_nil_r. split; [exact F1|]. intros c [= <-]. congruence. }
  destruct (K1 _ eq_refl Ec) as (l0 & -> & L). clear K1.
  eapply wp_mono with (Q := fun l _ _ => Forall preparing l).
  - match goal with |- wp ?m _ _ => assert (W : within disk E preparing m); [|apply W] end.
    win.
    + apply within_abilities. intros _. exact I.
    + destruct (negb a0); win.
      * destruct two; win; [apply within_compare; exact I|].
        unfold set_escapes. win. destruct a3; win. apply within_act. exact I.
      * apply within_act. exact I.
  - cbn beta. intros l s' x _ F. split; [apply Forall_app; auto|]. intros c _ _. exists l0, l.
    split; [now rewrite <- app_assoc|exact L].
Qed.

Lemma setup_wp a d : mw a = true ->
  wp (setup disk E o a) (fun l s' x => Forall preparing l /\
    forall c, x = Val c -> is_err c = false -> locked l d) (mk_st d [] false).
Proof using.
  intros Hm.
  assert (G : forall two, wp (repo_setup disk E o a two) (fun l s' x => Forall preparing l /\
    forall c, x = Val c -> is_err c = false -> locked l d) (mk_st d [] false)).
  { intros two. eapply wp_mono; [now apply repo_setup_wp|]. cbn beta. intros l s' x _ [F K].
    split; [exact F|]. intros c -> H. destruct (K c eq_refl H) as (l1 & l2 & -> & W). exists l1, l2. auto. }
  destruct a; try discriminate Hm; unfold setup; try apply G.
  apply wp_bind. unfold read_dir_setup. apply wp_bind. unfold abilities. apply wp_ask.
  destruct (e_abil _ E LDir _) as [[]|b| |]; try (split; [constructor|intros c K; discriminate K]).
  - apply wp_ret. cbn [app]. unfold unless_err at 1. cbn [is_err OK N.land N.eqb negb].
    apply wp_bind. eapply wp_mono; [apply G|]. cbn beta. intros l s' x _ [F K].
    destruct x as [c0|b| |]; try (split; [exact F|intros c W; discriminate W]).
    unfold unless_err. destruct (is_err c0) eqn:Ec; apply wp_ret; cbn [app]; rewrite app_nil_r; (split; [exact F|]).
    + intros c [= <-]. congruence.
    + intros c _ _. eapply K; eauto.
  - apply wp_ret. cbn [app]. unfold unless_err at 1. cbn [is_err ERR N.land N.eqb negb].
    apply wp_ret. split; [constructor|]. intros c [= <-] W. discriminate W.
Qed.

(** ** The session *)
Lemma act_follows p plan (k : N -> M disk N) s Q :
  (forall c, snd (e_eff _ E (s_ops s) p (s_disk s)) = Val c ->
     wp (k c) (fun l s' x => exists b, follows (s_ops s ++ [p]) (fst (e_eff _ E (s_ops s) p (s_disk s))) plan l b /\ Q b x)
       (mk_st (fst (e_eff _ E (s_ops s) p (s_disk s))) (s_ops s ++ [p]) (s_lock s))) ->
  (forall b, Q false (Exc b)) -> Q false Quit -> Q false Killed ->
  wp (bind disk (act disk E p) k) (fun l s' x => exists b, follows (s_ops s) (s_disk s) (p :: plan) l b /\ Q b x) s.
Proof using.
  intros H Q1 Q2 Q3. apply wp_bind, wp_act.
  destruct (snd (e_eff _ E (s_ops s) p (s_disk s))) as [c|b| |] eqn:Ex;
    try (exists false; split; [constructor; intros c W; congruence|auto]).
  eapply wp_mono; [apply (H c eq_refl)|]. cbn beta. intros l s' x _ (b & F & W).
  exists b. split; [|exact W]. cbn [app]. econstructor; eassumption.
Qed.
Definition ended (b : bool) (x : out N) : Prop :=
  (b = true -> x = Val OK) /\ (b = false -> forall c, x <> Val c).

Lemma operate_backup_wp t s :
  wp (operate_backup disk E t) (fun l s' x => exists b,
    follows (s_ops s) (s_disk s) (session (t =? 0)%Z) l b /\ ended b x) s.
Proof using.
  assert (N1 : forall b, ended false (Exc b)) by (split; [discriminate|intros; discriminate]).
  assert (N2 : ended false Quit) by (split; [discriminate|intros; discriminate]).
  assert (N3 : ended false Killed) by (split; [discriminate|intros; discriminate]).
  unfold operate_backup, session. destruct (t =? 0)%Z; cbn [negb when].
  - unfold when. apply wp_bind, wp_ret.
    eapply wp_mono with (Q := fun l s' x => exists b, follows (s_ops s) (s_disk s) [OpApply; OpTouch; OpStats] l b /\ ended b x);
      [|cbn beta; cbn [app]; auto].
    apply act_follows; auto. intros c1 H1. apply act_follows; auto. intros c2 H2. apply act_follows; auto.
    intros c3 H3. apply wp_ret. exists true. split; [constructor|]. split; [reflexivity|discriminate].
  - unfold when. apply act_follows; auto. intros c1 H1. apply act_follows; auto. intros c2 H2. apply act_follows; auto.
    intros c3 H3. apply act_follows; auto. intros c4 H4. apply wp_ret. exists true.
    split; [constructor|]. split; [reflexivity|discriminate].
Qed.

Lemma lor_bit0 a b : N.testbit (N.lor a b) 0 = N.testbit a 0 || N.testbit b 0.
Proof using. apply N.lor_spec. Qed.

Lemma run_backup_wp pre d s : s_ops s = pre -> s_disk s = replay [] pre d ->
  wp (run disk E o Backup) (fun l s' x => exists reg ses,
    l = reg ++ ses /\ (reg = [] \/ reg = [OpRegress] /\ e_regress _ E pre (replay [] pre d) = Val NRYes) /\
    let t := v_mtime (e_view _ E (replay [] (pre ++ reg) d)) in
    (ses = [] /\ (forall c, x = Val c -> is_err c = true) \/
     in_order pre reg d /\ (0 <= t < o_now o)%Z /\
     exists b, follows (pre ++ reg) (replay [] (pre ++ reg) d) (session (t =? 0)%Z) ses b /\
       (b = false -> forall c, x <> Val c) /\
       (b = true -> exists c, x = Val c /\ is_err c = false /\ (reg <> [] -> N.testbit c 1 = true)))) s.
Proof using.
  intros Ho Hd. unfold run, operate_regress. apply wp_bind, wp_bind, wp_ask. rewrite Ho, Hd.
  assert (Z : forall x : out N, (forall c, x <> Val c) -> exists reg ses : list op, [] = reg ++ ses /\
    (reg = [] \/ reg = [OpRegress] /\ e_regress _ E pre (replay [] pre d) = Val NRYes) /\
    let t := v_mtime (e_view _ E (replay [] (pre ++ reg) d)) in
    (ses = [] /\ (forall c, x = Val c -> is_err c = true) \/
     in_order pre reg d /\ (0 <= t < o_now o)%Z /\
     exists b, follows (pre ++ reg) (replay [] (pre ++ reg) d) (session (t =? 0)%Z) ses b /\
       (b = false -> forall c, x <> Val c) /\
       (b = true -> exists c, x = Val c /\ is_err c = false /\ (reg <> [] -> N.testbit c 1 = true)))).
  { intros x H. exists [], []. split; [reflexivity|]. split; [now left|]. left. split; [reflexivity|].
    intros c ->. now destruct (H c). }
  destruct (e_regress _ E pre (replay [] pre d)) as [nr|b| |] eqn:Er; try (apply Z; intros; discriminate).
  (* the part after the regress *)
  assert (G : forall reg c0 s1, s_ops s1 = pre ++ reg -> s_disk s1 = replay [] (pre ++ reg) d ->
     (reg = [] \/ reg = [OpRegress] /\ e_regress _ E pre (replay [] pre d) = Val NRYes) ->
     (is_err c0 = false -> in_order pre reg d) -> (reg <> [] -> N.testbit c0 1 = true) ->
     wp (unless_err disk c0
       (bind disk (look disk E v_mtime) (fun t =>
         if (t <? 0)%Z || (o_now o <=? t)%Z then ret disk (N.lor c0 ERR) else
         bind disk (operate_backup disk E t) (fun g => ret disk (N.lor c0 g)))))
       (fun l' s'' y => exists reg0 ses : list op, reg ++ l' = reg0 ++ ses /\
         (reg0 = [] \/ reg0 = [OpRegress] /\ e_regress _ E pre (replay [] pre d) = Val NRYes) /\
         let t := v_mtime (e_view _ E (replay [] (pre ++ reg0) d)) in
         (ses = [] /\ (forall c, y = Val c -> is_err c = true) \/
          in_order pre reg0 d /\ (0 <= t < o_now o)%Z /\
          exists b, follows (pre ++ reg0) (replay [] (pre ++ reg0) d) (session (t =? 0)%Z) ses b /\
           (b = false -> forall c, y <> Val c) /\
           (b = true -> exists c, y = Val c /\ is_err c = false /\ (reg0 <> [] -> N.testbit c 1 = true)))) s1).
  { intros reg c0 s1 O1 D1 R1 I1 W1. unfold unless_err. destruct (is_err c0) eqn:Ec.
    { apply wp_ret. exists reg, []. split; [reflexivity|]. split; [exact R1|]. left. split; [reflexivity|].
      intros c [= <-]. exact Ec. }
    apply wp_bind, wp_look. rewrite D1. cbv zeta. set (t := v_mtime (e_view _ E (replay [] (pre ++ reg) d))).
    destruct ((t <? 0)%Z || (o_now o <=? t)%Z) eqn:Et.
    { apply wp_ret. exists reg, []. split; [reflexivity|]. split; [exact R1|]. left. split; [reflexivity|].
      intros c [= <-]. rewrite is_err_lor. apply orb_true_r. }
    apply orb_false_iff in Et as [T1 T2]. apply Z.ltb_ge in T1. apply Z.leb_gt in T2.
    apply wp_bind. eapply wp_mono; [apply operate_backup_wp|]. cbn beta. intros l2 s2 x2 _ (b & F & B1 & B2).
    rewrite O1, D1 in F.
    assert (Fin : forall y : out N, (b = false -> forall c, y <> Val c) ->
       (b = true -> exists c, y = Val c /\ is_err c = false /\ (reg <> [] -> N.testbit c 1 = true)) ->
       exists reg0 ses : list op, reg ++ [] ++ l2 ++ [] = reg0 ++ ses /\
         (reg0 = [] \/ reg0 = [OpRegress] /\ e_regress _ E pre (replay [] pre d) = Val NRYes) /\
         (ses = [] /\ (forall c, y = Val c -> is_err c = true) \/
          in_order pre reg0 d /\ (0 <= v_mtime (e_view _ E (replay [] (pre ++ reg0) d)) < o_now o)%Z /\
          exists b, follows (pre ++ reg0) (replay [] (pre ++ reg0) d) (session (v_mtime (e_view _ E (replay [] (pre ++ reg0) d)) =? 0)%Z) ses b /\
           (b = false -> forall c, y <> Val c) /\
           (b = true -> exists c, y = Val c /\ is_err c = false /\ (reg0 <> [] -> N.testbit c 1 = true)))).
    { intros y Y1 Y2. exists reg, l2. split; [cbn [app]; now rewrite app_nil_r|]. split; [exact R1|]. right.
      split; [auto|]. split; [fold t; lia|]. exists b. auto. }
    destruct x2 as [c2|b2| |].
    - apply wp_ret. apply Fin.
      + intros ->. now destruct (B2 eq_refl c2).
      + intros ->. specialize (B1 eq_refl). injection B1 as ->. exists (N.lor c0 OK). rewrite is_err_lor, Ec.
        split; [reflexivity|]. split; [reflexivity|]. intros N. unfold OK. rewrite N.lor_0_r. auto.
    - cbn [app]. specialize (Fin (Exc b2)). cbn [app] in Fin. rewrite app_nil_r in Fin. apply Fin; [intros; discriminate|].
      intros ->. now specialize (B1 eq_refl).
    - specialize (Fin Quit). cbn [app] in *. rewrite app_nil_r in Fin. apply Fin; [intros; discriminate|].
      intros ->. now specialize (B1 eq_refl).
    - specialize (Fin Killed). cbn [app] in *. rewrite app_nil_r in Fin. apply Fin; [intros; discriminate|].
      intros ->. now specialize (B1 eq_refl). }
  destruct nr.
  - apply wp_ret. rewrite Er in G. apply (G [] OK s); rewrite ?app_nil_r; auto.
    intros _. left. auto.
  - apply wp_bind, wp_act. rewrite Ho, Hd.
    assert (O1 : fst (e_eff _ E pre OpRegress (replay [] pre d)) = replay [] (pre ++ [OpRegress]) d)
      by now rewrite replay_app.
    assert (Z1 : forall x : out N, (forall c, x <> Val c) -> exists reg ses : list op, [OpRegress] = reg ++ ses /\
      (reg = [] \/ reg = [OpRegress] /\ e_regress _ E pre (replay [] pre d) = Val NRYes) /\
      let t := v_mtime (e_view _ E (replay [] (pre ++ reg) d)) in
      (ses = [] /\ (forall c, x = Val c -> is_err c = true) \/
       in_order pre reg d /\ (0 <= t < o_now o)%Z /\
       exists b, follows (pre ++ reg) (replay [] (pre ++ reg) d) (session (t =? 0)%Z) ses b /\
         (b = false -> forall c, x <> Val c) /\
         (b = true -> exists c, x = Val c /\ is_err c = false /\ (reg <> [] -> N.testbit c 1 = true)))).
    { intros x H. exists [OpRegress], []. split; [reflexivity|]. split; [now right|]. left. split; [reflexivity|].
      intros c ->. now destruct (H c). }
    rewrite O1. destruct (snd _) as [c1|b| |] eqn:Ex; try (try rewrite Er in Z1; cbn [app]; apply Z1; intros; discriminate).
    apply wp_ret. rewrite Er in G. cbn [app]. refine (G [OpRegress] (N.lor c1 WARN) _ _ _ _ _ _); auto.
    + intros He. right. split; [reflexivity|]. split; [exact Er|]. exists c1. split; [exact Ex|].
      rewrite is_err_lor in He. apply orb_false_iff in He as [He _]. now rewrite <- is_err_bit.
    + intros _. rewrite N.lor_spec. apply orb_true_r.
Qed.

Lemma backup_parts d : exists pre reg ses fin,
  ops_of Backup d = pre ++ reg ++ ses ++ fin /\
  Forall preparing pre /\ (fin = [] \/ fin = [OpExit]) /\
  (reg = [] \/ reg = [OpRegress] /\ e_regress _ E pre (replay [] pre d) = Val NRYes) /\
  (reg ++ ses <> [] -> locked pre d) /\
  let t := v_mtime (e_view _ E (replay [] (pre ++ reg) d)) in
  (ses = [] /\ failed (snd (cmd Backup d)) \/
   in_order pre reg d /\ (0 <= t < o_now o)%Z /\
   exists b, follows (pre ++ reg) (replay [] (pre ++ reg) d) (session (t =? 0)%Z) ses b /\
     (b = false -> failed (snd (cmd Backup d))) /\
     (b = true -> forall c, snd (cmd Backup d) = Val c ->
        N.testbit c 0 = false /\ (reg <> [] -> N.testbit c 1 = true))).
Proof using.
  destruct (main_parts Backup d) as [[H F]|(c & Hc & H)].
  { exists [], [], [], []. rewrite H. cbn [s_ops app]. repeat split; auto.
    intros N. now destruct N. }
  rewrite H. set (x0 := snd _). revert x0.
  assert (W : wp (leave disk E Backup (work Backup c)) (fun ops s' x => exists pre reg ses fin,
    ops = pre ++ reg ++ ses ++ fin /\
    Forall preparing pre /\ (fin = [] \/ fin = [OpExit]) /\
    (reg = [] \/ reg = [OpRegress] /\ e_regress _ E pre (replay [] pre d) = Val NRYes) /\
    (reg ++ ses <> [] -> locked pre d) /\
    let t := v_mtime (e_view _ E (replay [] (pre ++ reg) d)) in
    (ses = [] /\ failed x \/
     in_order pre reg d /\ (0 <= t < o_now o)%Z /\
     exists b, follows (pre ++ reg) (replay [] (pre ++ reg) d) (session (t =? 0)%Z) ses b /\
       (b = false -> failed x) /\
       (b = true -> forall c, x = Val c ->
          N.testbit c 0 = false /\ (reg <> [] -> N.testbit c 1 = true)))) (mk_st d [] false)).
  2: { destruct W as (l & [W1 _] & W2). cbn in W1. cbn beta in W2. intros x0. rewrite W1. exact W2. }
  apply leave_wp.
  eapply wp_mono with (Q := fun l s1 x => exists pre reg ses,
    l = pre ++ reg ++ ses /\
    Forall preparing pre /\
    (reg = [] \/ reg = [OpRegress] /\ e_regress _ E pre (replay [] pre d) = Val NRYes) /\
    (reg ++ ses <> [] -> locked pre d) /\
    let t := v_mtime (e_view _ E (replay [] (pre ++ reg) d)) in
    (ses = [] /\ failed x \/
     in_order pre reg d /\ (0 <= t < o_now o)%Z /\
     exists b, follows (pre ++ reg) (replay [] (pre ++ reg) d) (session (t =? 0)%Z) ses b /\
       (b = false -> failed x) /\
       (b = true -> forall c, x = Val c ->
          N.testbit c 0 = false /\ (reg <> [] -> N.testbit c 1 = true)))).
  2: { intros l s1 x _ (pre & reg & ses & -> & P1 & P2 & P3 & P4).
    assert (A : forall y fin, (fin = [] \/ fin = [OpExit]) -> (y = x \/ y = Exc true \/ y = Exc false \/ y = Quit \/ y = Killed) ->
      exists pre0 reg0 ses0 fin0,
      (pre ++ reg ++ ses) ++ fin = pre0 ++ reg0 ++ ses0 ++ fin0 /\
      Forall preparing pre0 /\ (fin0 = [] \/ fin0 = [OpExit]) /\
      (reg0 = [] \/ reg0 = [OpRegress] /\ e_regress _ E pre0 (replay [] pre0 d) = Val NRYes) /\
      (reg0 ++ ses0 <> [] -> locked pre0 d) /\
      let t := v_mtime (e_view _ E (replay [] (pre0 ++ reg0) d)) in
      (ses0 = [] /\ failed y \/
       in_order pre0 reg0 d /\ (0 <= t < o_now o)%Z /\
       exists b, follows (pre0 ++ reg0) (replay [] (pre0 ++ reg0) d) (session (t =? 0)%Z) ses0 b /\
         (b = false -> failed y) /\
         (b = true -> forall c, y = Val c ->
            N.testbit c 0 = false /\ (reg0 <> [] -> N.testbit c 1 = true)))).
    { intros y fin Hf Hy. exists pre, reg, ses, fin. rewrite <- !app_assoc. repeat (split; [auto|]).
      assert (Y : y = x \/ failed y /\ forall c, y <> Val c)
        by (destruct Hy as [Hy|[-> |[-> |[-> | ->]]]]; [now left|right; split; [intros c' [= <-]; reflexivity|discriminate]..]).
      destruct Y as [-> |[Y1 Y2]]; [exact P4|].
      destruct P4 as [[P4 _]|(P4 & P5 & b & P6 & _)]; [left; auto|right].
      split; [exact P4|]. split; [exact P5|]. exists b. split; [exact P6|].
      split; [auto|]. intros _ c' ->. now destruct (Y2 c'). }
    split; [|split; [|split]].
    - intros ->. specialize (A Killed [] (or_introl eq_refl)). rewrite app_nil_r in A. auto.
    - intros _ _. specialize (A x [] (or_introl eq_refl)). rewrite app_nil_r in A. auto.
    - intros _ _ Hm. discriminate Hm.
    - intros _ _ _. cbv zeta. destruct (snd _) as [v|[]| |]; apply A; auto 6. }
  unfold work. apply wp_bind. eapply wp_mono; [now apply setup_wp|]. cbn beta. intros l s1 x R1 [F1 L1].
  assert (Z : forall y : out N, failed y -> exists pre reg ses, l = pre ++ reg ++ ses /\
    Forall preparing pre /\
    (reg = [] \/ reg = [OpRegress] /\ e_regress _ E pre (replay [] pre d) = Val NRYes) /\
    (reg ++ ses <> [] -> locked pre d) /\
    let t := v_mtime (e_view _ E (replay [] (pre ++ reg) d)) in
    (ses = [] /\ failed y \/
     in_order pre reg d /\ (0 <= t < o_now o)%Z /\
     exists b, follows (pre ++ reg) (replay [] (pre ++ reg) d) (session (t =? 0)%Z) ses b /\
       (b = false -> failed y) /\
       (b = true -> forall c, y = Val c ->
          N.testbit c 0 = false /\ (reg <> [] -> N.testbit c 1 = true)))).
  { intros y Fy. exists l, [], []. cbn [app]. rewrite app_nil_r. split; [reflexivity|]. split; [exact F1|]. split; [now left|].
    split; [intros N; now destruct N|]. left. auto. }
  destruct x as [g|b| |]; try (apply Z; intros c' [= <-]; reflexivity).
  unfold unless_err. destruct (is_err (N.lor c g)) eqn:Eg.
  { apply wp_ret. rewrite app_nil_r. apply Z. now apply failed_val. }
  rewrite is_err_lor, Hc in Eg. cbn [orb] in Eg. specialize (L1 g eq_refl Eg).
  destruct R1 as [O1 D1]. cbn [s_ops s_disk app] in O1, D1.
  apply wp_bind. eapply wp_mono; [apply (run_backup_wp l d s1 O1 D1)|]. cbn beta.
  intros l2 s2 y _ (reg & ses & -> & Hr & K). cbv zeta in K.
  assert (Fin : forall z : out N, ((forall v, y = Val v -> is_err v = true) -> failed z) -> 
     ((forall v, y <> Val v) -> failed z) ->
     (forall v, y = Val v -> z = Val (N.lor (N.lor c g) v)) ->
     exists pre reg0 ses0, l ++ (reg ++ ses) ++ [] = pre ++ reg0 ++ ses0 /\
    Forall preparing pre /\
    (reg0 = [] \/ reg0 = [OpRegress] /\ e_regress _ E pre (replay [] pre d) = Val NRYes) /\
    (reg0 ++ ses0 <> [] -> locked pre d) /\
    let t := v_mtime (e_view _ E (replay [] (pre ++ reg0) d)) in
    (ses0 = [] /\ failed z \/
     in_order pre reg0 d /\ (0 <= t < o_now o)%Z /\
     exists b, follows (pre ++ reg0) (replay [] (pre ++ reg0) d) (session (t =? 0)%Z) ses0 b /\
       (b = false -> failed z) /\
       (b = true -> forall c, z = Val c ->
          N.testbit c 0 = false /\ (reg0 <> [] -> N.testbit c 1 = true)))).
  { intros z Z1 Z2 Z3. exists l, reg, ses. rewrite app_nil_r. split; [reflexivity|]. split; [exact F1|].
    split; [exact Hr|]. split; [auto|]. cbv zeta. destruct K as [[K1 K2]|(K1 & K2 & b & K3 & K4 & K5)]; [left; auto|right].
    split; [exact K1|]. split; [exact K2|]. exists b. split; [exact K3|]. split; [auto|].
    intros -> c' Hz. destruct (K5 eq_refl) as (v & -> & E1 & E2). specialize (Z3 v eq_refl). rewrite Hz in Z3. injection Z3 as ->.
    split; [rewrite <- is_err_bit, !is_err_lor, Hc, Eg; exact E1|]. intros N. rewrite !N.lor_spec, (E2 N). apply orb_true_r. }
  destruct y as [v|b| |].
  - apply wp_ret. apply Fin.
    + intros Hv. apply failed_val. rewrite !is_err_lor, (Hv v eq_refl). apply orb_true_r.
    + intros Hv. exfalso. now apply (Hv v).
    + intros v' [= <-]. reflexivity.
  - specialize (Fin (Exc b)). rewrite app_nil_r in Fin. apply Fin; try discriminate; intros _ c' [= <-]; reflexivity.
  - specialize (Fin Quit). rewrite app_nil_r in Fin. apply Fin; try discriminate; intros _ c' [= <-]; reflexivity.
  - specialize (Fin Killed). rewrite app_nil_r in Fin. apply Fin; try discriminate; intros _ c' [= <-]; reflexivity.
Qed.

(** C60: a backup prepares the repository, takes the lock, regresses if necessary, and then
    the session: the marker first, then the data, and the old marker only after that; the first
    session sets its marker at the end.  So in whichever way it ends. *)
Theorem C60_backup_order : forall d, exists pre reg ses fin,
  ops_of Backup d = pre ++ reg ++ ses ++ fin /\
  Forall preparing pre /\ (fin = [] \/ fin = [OpExit]) /\
  (reg = [] \/ reg = [OpRegress] /\ e_regress _ E pre (replay [] pre d) = Val NRYes) /\
  (reg ++ ses <> [] -> locked pre d) /\
  (ses <> [] ->
   let t := v_mtime (e_view _ E (replay [] (pre ++ reg) d)) in
   in_order pre reg d /\ (0 <= t < o_now o)%Z /\
   exists b, follows (pre ++ reg) (replay [] (pre ++ reg) d) (session (t =? 0)%Z) ses b).
Proof using.
  intros d. destruct (backup_parts d) as (pre & reg & ses & fin & H1 & H2 & H3 & H4 & H5 & H6).
  exists pre, reg, ses, fin. repeat (split; [assumption|]). intros N. cbv zeta in *.
  destruct H6 as [[H6 _]|(H6 & H7 & b & H8 & _)]; [congruence|]. eauto.
Qed.

(** C61: a backup without error in the exit status did everything; a regress before is
    reported as warning *)
Theorem C61_backup_exit_status : forall d c,
  status (snd (cmd Backup d)) = Some c -> N.testbit c 0 = false ->
  exists pre reg ses fin, ops_of Backup d = pre ++ reg ++ ses ++ fin /\
    in_order pre reg d /\ (reg <> [] -> N.testbit c 1 = true) /\
    let t := v_mtime (e_view _ E (replay [] (pre ++ reg) d)) in
    ses = session (t =? 0)%Z /\
    follows (pre ++ reg) (replay [] (pre ++ reg) d) (session (t =? 0)%Z) ses true.
Proof using.
  intros d c Hs Hc. destruct (backup_parts d) as (pre & reg & ses & fin & H1 & H2 & H3 & H4 & H5 & H6).
  assert (NF : ~ failed (snd (cmd Backup d))) by (intros F; specialize (F c Hs); congruence).
  exists pre, reg, ses, fin. split; [exact H1|]. cbv zeta in *.
  destruct H6 as [[_ F]|(I & T & b & F & B1 & B2)]; [now destruct NF|].
  destruct b; [|now destruct NF; apply B1].
  split; [exact I|]. split.
  - intros N. destruct (snd (cmd Backup d)) as [c'|b| |]; cbn in Hs; try discriminate Hs; injection Hs as <-; try discriminate Hc.
    now apply B2.
  - split; [|exact F]. clear -F. revert F. generalize (session (v_mtime (e_view _ E (replay [] (pre ++ reg) d)) =? 0)%Z).
    generalize (replay [] (pre ++ reg) d). generalize (pre ++ reg).
    intros done d' plan F. remember true as b. induction F; [reflexivity|discriminate|f_equal; auto].
Qed.

(** ** The other writing commands *)
Lemma writing_parts a d (R : list op -> list op -> out N -> Prop) : mw a = true ->
  (forall pre s, s_ops s = pre -> s_disk s = replay [] pre d -> wp (run disk E o a) (fun l _ x => R pre l x) s) ->
  exists pre body fin, ops_of a d = pre ++ body ++ fin /\ Forall preparing pre /\
    (fin = [] \/ fin = [OpExit]) /\
    (body = [] /\ failed (snd (cmd a d)) \/
     locked pre d /\ exists y, R pre body y /\
       (failed (snd (cmd a d)) \/
        exists c0 v, is_err c0 = false /\ y = Val v /\ snd (cmd a d) = Val (N.lor c0 v))).
Proof using.
  intros Hm HR. destruct (main_parts a d) as [[H F]|(c & Hc & H)].
  { exists [], [], []. rewrite H. cbn [s_ops app]. repeat split; auto. }
  rewrite H. set (x0 := snd _). revert x0.
  assert (W : wp (leave disk E a (work a c)) (fun ops s' x => exists pre body fin,
    ops = pre ++ body ++ fin /\ Forall preparing pre /\
    (fin = [] \/ fin = [OpExit]) /\
    (body = [] /\ failed x \/
     locked pre d /\ exists y, R pre body y /\
       (failed x \/ exists c0 v, is_err c0 = false /\ y = Val v /\ x = Val (N.lor c0 v)))) (mk_st d [] false)).
  2: { destruct W as (l & [W1 _] & W2). cbn in W1. cbn beta in W2. intros x0. rewrite W1. exact W2. }
  apply leave_wp.
  eapply wp_mono with (Q := fun l s1 x => exists pre body, l = pre ++ body /\ Forall preparing pre /\
    (body = [] /\ failed x \/
     locked pre d /\ exists y, R pre body y /\
       (failed x \/ exists c0 v, is_err c0 = false /\ y = Val v /\ x = Val (N.lor c0 v)))).
  2: { intros l s1 x _ (pre & body & -> & P1 & P2).
    assert (A : forall y fin, (fin = [] \/ fin = [OpExit]) -> y = x \/ failed y ->
      exists pre0 body0 fin0,
      (pre ++ body) ++ fin = pre0 ++ body0 ++ fin0 /\ Forall preparing pre0 /\ (fin0 = [] \/ fin0 = [OpExit]) /\
      (body0 = [] /\ failed y \/
       locked pre0 d /\ exists y0, R pre0 body0 y0 /\
        (failed y \/ exists c0 v, is_err c0 = false /\ y0 = Val v /\ y = Val (N.lor c0 v)))).
    { intros y fin Hf Hy. exists pre, body, fin. rewrite <- !app_assoc. repeat (split; [auto|]).
      destruct Hy as [-> |Y]; [exact P2|].
      destruct P2 as [[P2 _]|(P2 & y0 & P3 & _)]; [left; auto|right; eauto 6]. }
    split; [|split; [|split]].
    - intros ->. specialize (A Killed [] (or_introl eq_refl)). rewrite app_nil_r in A. auto.
    - intros _ _. specialize (A x [] (or_introl eq_refl)). rewrite app_nil_r in A. auto.
    - intros _ _ Hm'. congruence.
    - intros _ _ _. cbv zeta. destruct (snd _) as [v|b| |]; apply A; auto 6; right; intros c' [= <-]; reflexivity. }
  unfold work. apply wp_bind. eapply wp_mono; [now apply setup_wp|]. cbn beta. intros l s1 x R1 [F1 L1].
  assert (Z : forall y : out N, failed y -> exists pre body, l = pre ++ body /\ Forall preparing pre /\
    (body = [] /\ failed y \/
     locked pre d /\ exists y0, R pre body y0 /\
       (failed y \/ exists c0 v, is_err c0 = false /\ y0 = Val v /\ y = Val (N.lor c0 v)))).
  { intros y Fy. exists l, []. rewrite app_nil_r. auto 6. }
  destruct x as [g|b| |]; try (apply Z; intros c' [= <-]; reflexivity).
  unfold unless_err. destruct (is_err (N.lor c g)) eqn:Eg.
  { apply wp_ret. rewrite app_nil_r. apply Z. now apply failed_val. }
  assert (Eg' : is_err g = false) by (rewrite is_err_lor, Hc in Eg; exact Eg). specialize (L1 g eq_refl Eg').
  destruct R1 as [O1 D1]. cbn [s_ops s_disk app] in O1, D1.
  apply wp_bind. eapply wp_mono; [apply (HR l s1 O1 D1)|]. cbn beta. intros l2 s2 y _ Hy.
  destruct y as [v|b| |].
  - apply wp_ret. rewrite app_nil_r. exists l, l2. repeat (split; [auto|]). right. split; [exact L1|].
    exists (Val v). split; [exact Hy|]. right. exists (N.lor c g), v. auto.
  - exists l, l2. repeat (split; [auto|]). right. split; [exact L1|]. exists (Exc b). split; [exact Hy|].
    left. intros c' [= <-]; reflexivity.
  - exists l, l2. repeat (split; [auto|]). right. split; [exact L1|]. exists Quit. split; [exact Hy|].
    left. intros c' [= <-]; reflexivity.
  - exists l, l2. repeat (split; [auto|]). right. split; [exact L1|]. exists Killed. split; [exact Hy|].
    left. intros c' [=].
Qed.

(** C60: no command touches the contents of a repository without the lock *)
Theorem C60_lock_first : forall a d, mw a = true ->
  exists pre body fin, ops_of a d = pre ++ body ++ fin /\ Forall preparing pre /\
    (fin = [] \/ fin = [OpExit]) /\ Forall (fun p => ~ preparing p) body /\
    (body <> [] -> locked pre d).
Proof using.
  intros a d Hm.
  destruct (writing_parts a d (fun _ l _ => Forall (fun p => ~ preparing p) l) Hm) as (pre & body & fin & H1 & H2 & H3 & H4).
  - intros pre s _ _.
    assert (W : within disk E (fun p => ~ preparing p) (run disk E o a)); [|apply W].
    destruct a; try discriminate Hm; unfold run; win; try (apply within_act; intros []).
    + apply within_regress; [intros _ []|discriminate].
    + destruct ((a0 <? 0)%Z || (o_now o <=? a0)%Z); win. unfold operate_backup. win; try (apply within_act; intros []).
      destruct (a0 =? 0)%Z; apply within_act; intros [].
    + apply within_regress; [intros _ []|intros _; split; intros []].
  - exists pre, body, fin. repeat (split; [assumption|]).
    destruct H4 as [[-> _]|(L & y & H4 & _)]; [split; [constructor|congruence]|auto].
Qed.

(** C61: removal commands *)
Theorem C61_remove_exit_status : forall a p d c, a = RemoveIncrements /\ p = OpRemoveIncs \/ a = RemoveFile /\ p = OpRemoveFile ->
  status (snd (cmd a d)) = Some c -> N.testbit c 0 = false ->
  exists pre fin v, ops_of a d = pre ++ [p] ++ fin /\
    snd (e_eff _ E pre p (replay [] pre d)) = Val v /\ N.testbit v 0 = false /\
    (N.testbit v 1 = true -> N.testbit c 1 = true).
Proof using.
  intros a p d c Ha Hs Hc.
  assert (NF : ~ failed (snd (cmd a d))) by (intros F; specialize (F c Hs); congruence).
  assert (Hm : mw a = true) by (destruct Ha as [[-> _]|[-> _]]; reflexivity).
  destruct (writing_parts a d (fun pre l x => l = [p] /\ x = snd (e_eff _ E pre p (replay [] pre d))) Hm) as (pre & body & fin & H1 & H2 & H3 & H4).
  - intros pre s O D. destruct Ha as [[-> ->]|[-> ->]]; unfold run; apply wp_act; rewrite O, D; auto.
  - destruct H4 as [[_ F]|(_ & y & [-> ->] & [F|(c0 & v & C0 & V & X)])]; try (now destruct NF).
    exists pre, fin, v. split; [exact H1|]. split; [exact V|].
    rewrite X in Hs. injection Hs as <-. rewrite !N.lor_spec in *. apply orb_false_iff in Hc as [_ Hc].
    split; [exact Hc|]. intros ->. apply orb_true_r.
Qed.

(** C61: regress; nothing is undone but on request *)
Theorem C61_regress_exit_status : forall d c,
  status (snd (cmd Regress d)) = Some c -> N.testbit c 0 = false ->
  exists pre body fin, ops_of Regress d = pre ++ body ++ fin /\ Forall preparing pre /\
    (fin = [] \/ fin = [OpExit]) /\ locked pre d /\
    ((e_regress _ E pre (replay [] pre d) = Val NRYes /\ body = [OpRegress] /\
        follows pre (replay [] pre d) body body true /\ N.testbit c 1 = true) \/
     (e_regress _ E pre (replay [] pre d) = Val NRNo /\ o_force o = false /\ body = []) \/
     (e_regress _ E pre (replay [] pre d) = Val NRNo /\ o_force o = true /\
        follows pre (replay [] pre d) body body true /\
        (body = [OpFake; OpRegress] \/ body = [OpFake] /\ N.testbit c 1 = true))).
Proof using.
  intros d c Hs Hc.
  assert (NF : ~ failed (snd (cmd Regress d))) by (intros F; specialize (F c Hs); congruence).
  destruct (writing_parts Regress d (fun pre body x => forall c, x = Val c ->
    (e_regress _ E pre (replay [] pre d) = Val NRYes /\ body = [OpRegress] /\
        follows pre (replay [] pre d) body body true /\ N.testbit c 1 = true) \/
     (e_regress _ E pre (replay [] pre d) = Val NRNo /\ o_force o = false /\ body = []) \/
     (e_regress _ E pre (replay [] pre d) = Val NRNo /\ o_force o = true /\
        follows pre (replay [] pre d) body body true /\
        (body = [OpFake; OpRegress] \/ body = [OpFake] /\ N.testbit c 1 = true))) eq_refl) as (pre & body & fin & H1 & H2 & H3 & H4).
  - intros pre s O D. unfold run, operate_regress. apply wp_bind, wp_ask. rewrite O, D.
    destruct (e_regress _ E pre (replay [] pre d)) as [nr|b| |] eqn:Er; try (intros c' X; discriminate X).
    destruct nr.
    + destruct (o_force o) eqn:Ef.
      * apply wp_bind, wp_act. rewrite O, D.
        destruct (snd (e_eff _ E pre OpFake (replay [] pre d))) as [v|b| |] eqn:Ex; try (intros c' X; discriminate X).
        apply wp_bind, wp_ask. cbn [s_ops s_disk].
        destruct (e_faked _ E (pre ++ [OpFake]) _).
        -- apply wp_act. cbn [s_ops s_disk]. intros c' X. right. right. cbn [app].
           split; [reflexivity|]. split; [reflexivity|]. split; [|now left].
           econstructor; [exact Ex|]. econstructor; [exact X|]. constructor.
        -- apply wp_ret. intros c' [= <-]. right. right. split; [reflexivity|]. split; [reflexivity|]. cbn [app].
           split; [|right; auto]. econstructor; [exact Ex|]. constructor.
      * apply wp_ret. intros c' [= <-]. right. left. auto.
    + apply wp_bind, wp_act. rewrite O, D.
      destruct (snd (e_eff _ E pre OpRegress (replay [] pre d))) as [v|b| |] eqn:Ex; try (intros c' X; discriminate X).
      apply wp_ret. intros c' [= <-]. left. cbn [app]. split; [reflexivity|]. split; [reflexivity|].
      split; [econstructor; [exact Ex|constructor]|]. rewrite N.lor_spec. apply orb_true_r.
  - destruct H4 as [[_ F]|(L & y & HR & [F|(c0 & v & C0 & -> & X)])]; try (now destruct NF).
    exists pre, body, fin. split; [exact H1|]. split; [exact H2|]. split; [exact H3|]. split; [exact L|].
    rewrite X in Hs. injection Hs as <-.
    assert (U : N.testbit v 1 = true -> N.testbit (N.lor c0 v) 1 = true)
      by (intros V; rewrite N.lor_spec, V; apply orb_true_r).
    destruct (HR v eq_refl) as [(A & B & C & D)|[(A & B & C)|(A & B & C & D)]]; [left|right; left|right; right]; auto 6.
    repeat (split; [assumption|]). destruct D as [D|[D D']]; auto.
Qed.

(** ** Restore *)
Lemma setup_restore_wp d :
  wp (setup disk E o Restore) (fun l s' x => Forall preparing l /\
    forall c, x = Val c -> is_err c = false -> o_force o = true \/ e_lock _ E [] d <> Some false) (mk_st d [] false).
Proof using.
  unfold setup. apply wp_bind.
  eapply wp_mono with (Q := fun l s' x => l = [] /\
    forall c, x = Val c -> is_err c = false -> o_force o = true \/ e_lock _ E [] d <> Some false).
  - unfold repo_setup. apply wp_bind.
    eapply wp_mono with (Q := fun l s' x => l = [] /\
      forall c, x = Val c -> is_err c = false -> o_force o = true \/ e_lock _ E [] d <> Some false).
    + unfold shadow_setup. apply wp_bind. apply wp_ret. apply wp_bind, wp_look. cbn [check_time andb].
      apply wp_bind, wp_lock; [discriminate|]. intros _. cbv zeta. cbn [s_ops s_disk].
      destruct (e_lock _ E [] d) as [[]|].
      * apply wp_ask. split; [reflexivity|]. intros. right. discriminate.
      * destruct (o_force o); [apply wp_ask; split; [reflexivity|auto]|].
        apply wp_ret. split; [reflexivity|]. intros c [= <-] K. discriminate K.
      * apply wp_ask. split; [reflexivity|]. intros. right. discriminate.
    + cbn beta. intros l s' x _ [-> K]. destruct x as [c0|b| |]; try (split; [reflexivity|intros c W; discriminate W]).
      unfold unless_err at 1. destruct (is_err c0) eqn:Ec.
      { apply wp_ret. split; [reflexivity|]. intros c [= <-]. congruence. }
      specialize (K c0 eq_refl Ec).
      eapply wp_mono with (Q := fun l _ _ => Forall (fun _ => False) l).
      * match goal with |- wp ?m _ _ => assert (W : within disk E (fun _ => False) m); [|apply W] end.
        win; [apply within_abilities; discriminate|]. destruct (negb a); win. discriminate.
      * cbn beta. intros l1 s1 x1 _ F. destruct l1 as [|p l1]; [|inversion F; contradiction].
        split; [reflexivity|auto].
  - cbn beta. intros l s' x _ [-> K]. destruct x as [c0|b| |]; try (split; [constructor|intros c W; discriminate W]).
    unfold unless_err at 1. destruct (is_err c0) eqn:Ec.
    { apply wp_ret. split; [constructor|]. intros c [= <-]. congruence. }
    specialize (K c0 eq_refl Ec). cbn [app].
    eapply wp_mono with (Q := fun l _ _ => Forall preparing l).
    + match goal with |- wp ?m _ _ => assert (W : within disk E preparing m); [|apply W] end.
      win; [apply within_write_dir; intros; exact I|]. destruct (o_at o || negb (e_ref_inc disk E)); win.
    + cbn beta. intros. split; auto.
Qed.

Lemma restore_parts d :
  (Forall preparing (ops_of Restore d) /\ failed (snd (cmd Restore d))) \/
  exists pre, ops_of Restore d = pre ++ [OpRestore] /\ Forall preparing pre /\
    e_regress _ E pre (replay [] pre d) = Val NRNo /\
    (o_force o = true \/ e_lock _ E [] d <> Some false) /\
    (failed (snd (cmd Restore d)) \/ exists v, snd (e_eff _ E pre OpRestore (replay [] pre d)) = Val v).
Proof using.
  destruct (main_parts Restore d) as [[H F]|(c & Hc & H)].
  { left. rewrite H. split; [constructor|exact F]. }
  rewrite H. set (x0 := snd _). revert x0.
  assert (W : wp (leave disk E Restore (work Restore c)) (fun ops s' x => 
    (Forall preparing ops /\ failed x) \/
    exists pre, ops = pre ++ [OpRestore] /\ Forall preparing pre /\
    e_regress _ E pre (replay [] pre d) = Val NRNo /\
    (o_force o = true \/ e_lock _ E [] d <> Some false) /\
    (failed x \/ exists v, snd (e_eff _ E pre OpRestore (replay [] pre d)) = Val v)) (mk_st d [] false)).
  2: { destruct W as (l & [W1 _] & W2). cbn in W1. cbn beta in W2. intros x0. rewrite W1. exact W2. }
  apply leave_wp.
  eapply wp_mono with (Q := fun ops s' x => 
    (Forall preparing ops /\ failed x) \/
    exists pre, ops = pre ++ [OpRestore] /\ Forall preparing pre /\
    e_regress _ E pre (replay [] pre d) = Val NRNo /\
    (o_force o = true \/ e_lock _ E [] d <> Some false) /\
    (failed x \/ exists v, snd (e_eff _ E pre OpRestore (replay [] pre d)) = Val v)).
  2: { intros l s1 x _ K. split; [intros ->; exact K|]. split; [auto|]. split; [auto|]. intros _ _ Hm. discriminate Hm. }
  unfold work. apply wp_bind. eapply wp_mono; [apply setup_restore_wp|]. cbn beta. intros l s1 x R1 [F1 L1].
  assert (Z : forall y : out N, failed y -> 
    (Forall preparing l /\ failed y) \/
    exists pre, l = pre ++ [OpRestore] /\ Forall preparing pre /\
    e_regress _ E pre (replay [] pre d) = Val NRNo /\
    (o_force o = true \/ e_lock _ E [] d <> Some false) /\
    (failed y \/ exists v, snd (e_eff _ E pre OpRestore (replay [] pre d)) = Val v)) by auto.
  destruct x as [g|b| |]; try (apply Z; intros c' [= <-]; reflexivity).
  unfold unless_err at 1. destruct (is_err (N.lor c g)) eqn:Eg.
  { apply wp_ret. rewrite app_nil_r. apply Z. now apply failed_val. }
  assert (Eg' : is_err g = false) by (rewrite is_err_lor, Hc in Eg; exact Eg). specialize (L1 g eq_refl Eg').
  destruct R1 as [O1 D1]. cbn [s_ops s_disk app] in O1, D1.
  apply wp_bind. unfold run, operate_regress. apply wp_bind, wp_bind, wp_ask. rewrite O1, D1.
  destruct (e_regress _ E l (replay [] l d)) as [nr|b| |] eqn:Er; cbn [app]; rewrite ?app_nil_r;
    try (apply Z; intros c' [= <-]; reflexivity).
  destruct nr.
  - apply wp_ret. unfold unless_err. cbn [is_err OK N.land N.eqb negb].
    apply wp_bind, wp_caught, wp_act. rewrite O1, D1.
    destruct (snd (e_eff _ E l OpRestore (replay [] l d))) as [v|[]| |] eqn:Ex.
    + apply wp_ret, wp_ret. right. exists l. cbn [app]. repeat (split; [auto|]). right. eauto.
    + apply wp_ret, wp_ret. right. exists l. cbn [app]. repeat (split; [auto|]). left. apply failed_val.
      rewrite !is_err_lor. apply orb_true_r.
    + right. exists l. cbn [app]. repeat (split; [auto|]). left. intros c' [= <-]; reflexivity.
    + right. exists l. cbn [app]. repeat (split; [auto|]). left. intros c' [= <-]; reflexivity.
    + right. exists l. cbn [app]. repeat (split; [auto|]). left. intros c' [=].
  - apply wp_ret. unfold unless_err. cbn [is_err ERR N.land N.eqb negb]. apply wp_ret, wp_ret.
    cbn [app]. rewrite !app_nil_r. left. split; [exact F1|]. apply failed_val. rewrite !is_err_lor. apply orb_true_r.
Qed.

(** C60: a restore writes into its target only when the repository was found not to need a
    regress; without the lock only on request or if there is no lock to take *)
Theorem C60_restore_from_repository_in_order : forall d, In OpRestore (ops_of Restore d) ->
  exists pre, ops_of Restore d = pre ++ [OpRestore] /\ Forall preparing pre /\
    e_regress _ E pre (replay [] pre d) = Val NRNo /\
    (o_force o = true \/ e_lock _ E [] d <> Some false).
Proof using.
  intros d I. destruct (restore_parts d) as [[F _]|(pre & H1 & H2 & H3 & H4 & _)].
  - rewrite Forall_forall in F. now apply F in I.
  - eauto.
Qed.
Theorem C61_restore_exit_status : forall d c,
  status (snd (cmd Restore d)) = Some c -> N.testbit c 0 = false ->
  exists pre v, ops_of Restore d = pre ++ [OpRestore] /\
    snd (e_eff _ E pre OpRestore (replay [] pre d)) = Val v.
Proof using.
  intros d c Hs Hc.
  assert (NF : ~ failed (snd (cmd Restore d))) by (intros F; specialize (F c Hs); congruence).
  destruct (restore_parts d) as [[_ F]|(pre & H1 & _ & _ & _ & [F|[v H]])]; try (now destruct NF). eauto.
Qed.
End P.

Print Assumptions C60_backup_order.
Print Assumptions C61_backup_exit_status.
Print Assumptions C60_lock_first.
Print Assumptions C61_remove_exit_status.
Print Assumptions C61_regress_exit_status.
Print Assumptions C60_restore_from_repository_in_order.
Print Assumptions C61_restore_exit_status.
