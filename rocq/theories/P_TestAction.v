(** * C81: the action test. *)
From Coq Require Import List Bool Ascii Arith NArith Lia.
From Verif Require Import Base M_TestAction S_TestAction.
Import List ListNotations.

Lemma beq_bytes_true a b : beq_bytes a b = true <-> a = b.
Proof. unfold beq_bytes. destruct (list_eq_dec _ a b) as [->|N]; split; congruence. Qed.

Lemma tested_fit s : s_connects s = true -> (test_connection s = true <-> fit (LRemote s)).
Proof.
  intros C. unfold test_connection, fit. split.
  - intros H. exists s. destruct (s_echo s) as [v|]; [|discriminate].
    destruct (beq_bytes VALUE v) eqn:B; [|discriminate]. apply beq_bytes_true in B as <-. cbn [negb] in H.
    destruct (s_data s) as [| |[t|]]; try discriminate. apply beq_bytes_true in H as ->. auto.
  - intros (s' & E & _ & EC & D). injection E as <-. rewrite EC, D. unfold VALUE.
    destruct (beq_bytes (bs "xyz123") (bs "xyz123")) eqn:B; [reflexivity|].
    pose proof (proj2 (beq_bytes_true (bs "xyz123") (bs "xyz123")) eq_refl). congruence.
Qed.

Lemma locations_code_ok l : (locations_code l = 0%N /\ forall x, In x l -> remote x) \/
  (locations_code l = 1%N /\ exists x, In x l /\ ~ remote x).
Proof.
  induction l as [|x l IH]; [left; split; [reflexivity|easy]|].
  destruct x as [| |s]; cbn [locations_code].
  1,2: right; split; [destruct IH as [[-> _]|[-> _]]; reflexivity|eexists; split; [now left|intros [s E]; discriminate]].
  destruct IH as [[-> H]|[-> (y & I & N)]].
  - left. split; [reflexivity|]. intros y [<-|I]; [now exists s|now apply H].
  - right. split; [reflexivity|]. exists y. split; [now right|exact N].
Qed.

Lemma remotes_cons n s r : remotes ((n, LRemote s) :: r) = (n, s) :: remotes r.
Proof. reflexivity. Qed.
Lemma status_ok n l : (forall x, In x l -> remote x) ->
  (conn_status (map connect1 (combine (seq n (List.length l)) l)) = 0%N /\ (forall x, In x l -> reached x) /\
   exists ss, l = map LRemote ss /\ remotes (somes (map connect1 (combine (seq n (List.length l)) l))) = combine (seq n (List.length ss)) ss
     /\ List.length (somes (map connect1 (combine (seq n (List.length l)) l))) = List.length ss /\ Forall (fun s => s_connects s = true) ss) \/
  (conn_status (map connect1 (combine (seq n (List.length l)) l)) = 1%N /\ exists x, In x l /\ ~ reached x).
Proof.
  revert n. induction l as [|x l IH]; intros n R.
  - left. split; [reflexivity|]. split; [easy|]. exists []. auto.
  - destruct (R x (or_introl eq_refl)) as [s ->]. cbn [List.length seq combine map].
    change (connect1 (n, LRemote s)) with (if s_connects s then Some (n, LRemote s) else None).
    specialize (IH (S n) (fun y I => R y (or_intror I))).
    unfold conn_status in *. cbn [existsb]. destruct (s_connects s) eqn:C; cbn [orb].
    + destruct IH as [(IH1 & IH2 & ss & -> & IH3 & IH4 & IH5)|(IH1 & y & I & N)].
      * left. split; [exact IH1|]. split; [intros y [<-|I]; [now exists s|now apply IH2]|].
        exists (s :: ss). split; [reflexivity|]. cbn [somes]. rewrite remotes_cons. rewrite IH3. cbn [List.length]. rewrite IH4. cbn [seq combine]. repeat split; try reflexivity. now constructor.
      * right. split; [exact IH1|]. exists y. split; [now right|exact N].
    + right. split; [reflexivity|]. exists (LRemote s). split; [now left|]. intros (s' & E & C'). injection E as <-. congruence.
Qed.

Lemma all_tests_spec : forall ss n, Forall (fun s => s_connects s = true) ss ->
  exists k, snd (all_tests (combine (seq n (List.length ss)) ss)) = seq n k /\ (k <= List.length ss)%nat /\
    (forall i s, (S i < k)%nat -> nth_error ss i = Some s -> fit (LRemote s)) /\
    ((fst (all_tests (combine (seq n (List.length ss)) ss)) = true /\ k = List.length ss /\ Forall (fun s => fit (LRemote s)) ss) \/
     (fst (all_tests (combine (seq n (List.length ss)) ss)) = false /\
      exists s, (1 <= k)%nat /\ nth_error ss (k - 1) = Some s /\ ~ fit (LRemote s))).
Proof.
  induction ss as [|s ss IH]; intros n F; cbn [List.length seq combine all_tests].
  - exists 0%nat. repeat split; [lia|intros; lia|]. left. auto.
  - inversion F as [|? ? Fs Fr]; subst. specialize (IH (S n) Fr). pose proof (tested_fit s Fs) as T.
    destruct (test_connection s).
    + assert (FT : fit (LRemote s)) by (apply T; reflexivity).
      destruct (all_tests (combine (seq (S n) (List.length ss)) ss)) as [b t]. cbn [fst snd] in *.
      destruct IH as (k & E & L & A & B). exists (S k). cbn [seq]. rewrite E. repeat split; [lia| |].
      * intros [|i] s' LT H; [cbn in H; injection H as <-; exact FT|]. cbn in H. apply (A i s'); [lia|exact H].
      * destruct B as [(-> & -> & B)|(-> & s' & K1 & B & NF)].
        -- left. repeat split. now constructor.
        -- right. split; [reflexivity|]. exists s'. split; [lia|]. split; [|exact NF].
           destruct k as [|k]; [lia|]. cbn [Nat.sub] in *. rewrite Nat.sub_0_r in *. exact B.
    + exists 1%nat. cbn [fst snd seq]. repeat split; [lia|intros; lia|]. right. split; [reflexivity|].
      exists s. split; [lia|]. split; [reflexivity|]. intros FT. apply T in FT. discriminate.
Qed.

(** what can happen *)
Lemma outcomes pre locs : locs <> [] -> (pre = 0%N \/ pre = 1%N) ->
  (test_action pre locs = (1%N, [], []) /\ (pre = 1%N \/ exists x, In x locs /\ ~ remote x)) \/
  (pre = 0%N /\ (forall x, In x locs -> remote x) /\ exists made, test_action pre locs = (1%N, made, []) /\ exists x, In x locs /\ ~ reached x) \/
  (pre = 0%N /\ exists ss, locs = map LRemote ss /\ Forall (fun s => s_connects s = true) ss /\
    test_action pre locs = ((if fst (all_tests (combine (seq 0 (List.length ss)) ss)) then 0 else 1)%N,
      seq 0 (List.length ss), snd (all_tests (combine (seq 0 (List.length ss)) ss)))).
Proof.
  intros NE P. unfold test_action.
  destruct P as [->| ->]; [|left; destruct (locations_code_ok locs) as [[-> _]|[-> _]]; (split; [reflexivity|now left])].
  destruct (locations_code_ok locs) as [[-> R]|[-> X]]; [|left; split; [reflexivity|now right]].
  change (is_err (N.lor 0 0)) with false. cbv iota. right.
  destruct (status_ok 0 locs R) as [(-> & RE & ss & E & RM & LN & F)|(-> & x & I & N)].
  - right. split; [reflexivity|]. exists ss. split; [exact E|]. split; [exact F|].
    change (is_err 0) with false. cbv iota. unfold check. change (is_err 0) with false. cbv iota.
    change (is_err (N.lor (N.lor 0 0) 0)) with false. cbv iota.
    unfold test_connections. rewrite RM, LN.
    assert (LC : List.length (combine (seq 0 (List.length ss)) ss) = List.length ss) by (rewrite combine_length, seq_length; lia).
    rewrite LC.
    assert (NZ : (S (List.length ss) =? 1)%nat = false) by (apply Nat.eqb_neq; destruct ss; [cbn in E; contradiction|cbn; lia]).
    rewrite NZ. rewrite (proj2 (Nat.eqb_eq (S (List.length ss)) (List.length ss + 1))) by lia. cbn [negb].
    assert (MS : forall n (l : list server), map fst (combine (seq n (List.length l)) l) = seq n (List.length l)).
    { intros n l. revert n. induction l as [|y l IH]; intros n; [reflexivity|]. cbn. now rewrite IH. }
    rewrite MS. destruct (all_tests _) as [b t]. cbn [fst snd]. now destruct b.
  - left. split; [reflexivity|]. split; [exact R|]. eexists. split; [reflexivity|]. exists x. split; assumption.
Qed.

(** C81: the test succeeds exactly when every location is a server fit for a backup. *)
Theorem C81_succeeds : forall pre locs, locs <> [] -> (pre = 0%N \/ pre = 1%N) ->
  (fst (fst (test_action pre locs)) = 0%N <-> pre = 0%N /\ forall x, In x locs -> fit x).
Proof.
  intros pre locs NE P. assert (FR : forall x, fit x -> remote x /\ reached x).
  { intros x (s & E & C & _). split; exists s; auto. }
  destruct (outcomes pre locs NE P) as [[-> X]|[(-> & R & made & -> & x & I & N)|(-> & ss & -> & F & ->)]]; cbn [fst].
  - split; [discriminate|]. intros [-> A]. destruct X as [X|(x & I & N)]; [discriminate|]. destruct N. now apply FR, A.
  - split; [discriminate|]. intros [_ A]. destruct N. now apply FR, A.
  - destruct (all_tests_spec ss 0 F) as (k & _ & _ & _ & [(-> & _ & A)|(-> & s & _ & E & N)]).
    + split; [|reflexivity]. intros _. split; [reflexivity|]. intros x I. apply in_map_iff in I as (s & <- & I).
      rewrite Forall_forall in A. now apply A.
    + split; [discriminate|]. intros [_ A]. destruct N. apply A, in_map. now apply nth_error_In in E.
Qed.
Print Assumptions C81_succeeds.

(** C81: otherwise it fails, with the code of an error. *)
Theorem C81_fails : forall pre locs, locs <> [] -> (pre = 0%N \/ pre = 1%N) ->
  fst (fst (test_action pre locs)) = 0%N \/ fst (fst (test_action pre locs)) = 1%N.
Proof.
  intros pre locs NE P.
  destruct (outcomes pre locs NE P) as [[-> X]|[(-> & R & made & -> & x & I & N)|(-> & ss & -> & F & ->)]]; cbn [fst]; auto.
  destruct (fst _); auto.
Qed.
Print Assumptions C81_fails.

(** C81: no server is contacted when the command line is wrong, and every one is
    contacted before the first test. *)
Theorem C81_contacts : forall pre locs, locs <> [] -> (pre = 0%N \/ pre = 1%N) ->
  let '(_, made, tested) := test_action pre locs in
  (pre = 1%N \/ (exists x, In x locs /\ ~ remote x) -> made = [] /\ tested = []) /\
  (tested <> [] -> (forall x, In x locs -> reached x) /\ made = seq 0 (List.length locs)).
Proof.
  intros pre locs NE P.
  destruct (outcomes pre locs NE P) as [[-> X]|[(-> & R & made & -> & x & I & N)|(-> & ss & -> & F & ->)]].
  - split; [auto|]. now intros [].
  - split; [|now intros []]. intros [Q|(y & J & Q)]; [discriminate|]. destruct Q. now apply R.
  - split.
    + intros [Q|(y & J & Q)]; [discriminate|]. destruct Q. apply in_map_iff in J as (s & <- & _). now exists s.
    + intros _. split; [|now rewrite map_length]. intros y J. apply in_map_iff in J as (s & <- & J).
      rewrite Forall_forall in F. exists s. split; [reflexivity|now apply F].
Qed.
Print Assumptions C81_contacts.

(** C81: the servers are tested in the order given, up to the first which is not fit:
    it is the one the message is about. *)
Theorem C81_tested : forall pre locs, locs <> [] -> (pre = 0%N \/ pre = 1%N) ->
  let '(code, _, tested) := test_action pre locs in
  exists k, tested = seq 0 k /\
    (forall i x, (S i < k)%nat -> nth_error locs i = Some x -> fit x) /\
    (code = 0%N -> k = List.length locs) /\
    (code <> 0%N -> k = 0%nat \/ exists x, nth_error locs (k - 1) = Some x /\ ~ fit x).
Proof.
  intros pre locs NE P.
  destruct (outcomes pre locs NE P) as [[-> X]|[(-> & R & made & -> & x & I & N)|(-> & ss & -> & F & ->)]].
  - exists 0%nat. repeat split; [intros; lia|discriminate|now left].
  - exists 0%nat. repeat split; [intros; lia|discriminate|now left].
  - destruct (all_tests_spec ss 0 F) as (k & -> & L & A & B). exists k. split; [reflexivity|]. split.
    + intros i x LT E. rewrite nth_error_map in E. destruct (nth_error ss i) as [s|] eqn:Q; [|discriminate].
      injection E as <-. exact (A i s LT Q).
    + destruct B as [(-> & -> & _)|(-> & s & K & E & N)].
      * split; [now rewrite map_length|]. now intros [].
      * split; [discriminate|]. intros _. right. exists (LRemote s). split; [|exact N]. now rewrite nth_error_map, E.
Qed.
Print Assumptions C81_tested.

(** Exceptions. *)
(** One server which can't be reached: none is tested, whatever the program intends. *)
Theorem C81_others_untested_refuted : forall locs, locs <> [] -> (exists x, In x locs /\ ~ reached x) ->
  snd (test_action 0 locs) = [] /\ fst (fst (test_action 0 locs)) = 1%N.
Proof.
  intros locs NE (x & I & N).
  destruct (outcomes 0 locs NE (or_introl eq_refl)) as [[-> X]|[(_ & R & made & -> & _)|(_ & ss & -> & F & ->)]]; auto.
  exfalso. destruct N. apply in_map_iff in I as (s & <- & J). rewrite Forall_forall in F. exists s. auto.
Qed.
Print Assumptions C81_others_untested_refuted.

(** The warning for some servers only is never given. *)
Theorem C81_warning_unreachable : forall pre locs, locs <> [] -> (pre = 0%N \/ pre = 1%N) ->
  N.land (fst (fst (test_action pre locs))) WARN = 0%N.
Proof. intros pre locs NE P. now destruct (C81_fails pre locs NE P) as [-> | ->]. Qed.
Print Assumptions C81_warning_unreachable.

Definition good : location := LRemote (mk_server true (Some (bs "xyz123")) (AType (Some (bs "dir")))).
Definition nodir : location := LRemote (mk_server true (Some (bs "xyz123")) (AType None)).
Definition away : location := LRemote (mk_server false None AExc).
Example C81_example :
  test_action 0 [good; good] = (0%N, [0; 1]%nat, [0; 1]%nat) /\
  test_action 0 [good; nodir; good] = (1%N, [0; 1; 2]%nat, [0; 1]%nat) /\
  test_action 0 [good; away; good] = (1%N, [0; 2]%nat, []) /\
  test_action 0 [good; LLocal] = (1%N, [], []) /\
  fit good /\ ~ fit nodir /\ ~ reached away.
Proof.
  repeat split; try (vm_compute; reflexivity).
  - eexists. repeat split.
  - intros (s & E & _ & _ & D). injection E as <-. discriminate.
  - intros (s & E & C). injection E as <-. discriminate.
Qed.
