(** * Lemmas about M_Log *)
From Coq Require Import List Arith Bool Ascii ZArith Lia.
From Verif Require Import Base M_Security M_Log S_Log.
Import List ListNotations.

Lemma upd_nth : forall w i f k, nth_error (upd w i f) k = if Nat.eqb k i then option_map f (nth_error w k) else nth_error w k.
Proof.
  induction w as [|p w IH]; intros i f k.
  - cbn. destruct k; destruct (Nat.eqb _ _); reflexivity.
  - destruct i, k; cbn; try reflexivity. rewrite IH. reflexivity.
Qed.
Lemma upd_length : forall w i f, length (upd w i f) = length w.
Proof. induction w; destruct i; cbn; intros; auto. Qed.

(** ** Vetting of the requests of this model *)
Definition vetted (s : sec) : Prop :=
  s_conn_ok s = true /\ forall f, In f req_minimal -> mem_bytes f (s_allowed s) = true.

Lemma mem_bytes_in : forall x l, mem_bytes x l = true <-> In x l.
Proof.
  intros x l. unfold mem_bytes. rewrite existsb_exists. split.
  - intros (y & Hy & E). unfold beq_bytes in E. destruct (list_eq_dec ascii_dec x y); congruence.
  - intro H. exists x. split; auto. unfold beq_bytes. destruct (list_eq_dec ascii_dec x x); congruence.
Qed.

Lemma initialize_vetted : forall tmp cl lv rdir pairs s, initialize tmp cl lv rdir pairs = Some s -> vetted s.
Proof.
  intros tmp cl lv rdir pairs s H. unfold initialize in H.
  destruct (set_security_level tmp cl lv rdir pairs) as [[lv' rdir']|]; [|discriminate].
  assert (G : forall f, In f req_minimal -> mem_bytes f (allowed_requests cl lv') = true).
  { intros f Hf. apply mem_bytes_in. unfold allowed_requests. apply in_or_app. auto. }
  destruct rdir' as [[|c r]|]; inversion H; subst; split; auto.
Qed.

Lemma file_request_none : forall f, ~ In f (map fst file_requests) -> file_request f file_requests = None.
Proof.
  intros f H. generalize dependent file_requests. induction l as [|[g i] l IH]; cbn; intro H; auto.
  unfold beq_bytes. destruct (list_eq_dec ascii_dec f g); [subst; tauto|]. apply IH. tauto.
Qed.

Lemma vet_minimal : forall s f args, vetted s -> In f req_minimal -> file_request f file_requests = None ->
  forallb (fun a => match a with ARPath true _ _ => false | _ => true end) args = true ->
  vet_request s f args = VAccept.
Proof.
  intros s f args [Hc Ha] Hf Hn Hargs. unfold vet_request.
  rewrite (Ha f Hf). destruct (s_level s); auto; unfold vet_paths; destruct (s_restrict s) as [r|]; auto;
  (replace (forallb (vet_arg s r) args) with true; [rewrite Hn; auto|]);
  symmetry; apply forallb_forall; intros a Hin; rewrite forallb_forall in Hargs; specialize (Hargs a Hin);
  destruct a as [[] ? ?| | | |]; cbn in *; auto; discriminate.
Qed.

Lemma vet_global : forall s f g rest, vetted s -> mem_bytes f globals_requests = true -> file_request f file_requests = None ->
  forallb (fun a => match a with ARPath true _ _ => false | _ => true end) rest = true ->
  mem_bytes g disallowed_server_globals = false ->
  vet_request s f (AStr g :: rest) = VAccept.
Proof.
  intros s f g rest [Hc Ha] Hf Hn Hargs Hg. unfold vet_request.
  assert (P : vet_paths s f (AStr g :: rest) = VAccept).
  { unfold vet_paths. destruct (s_restrict s) as [r|]; auto.
    replace (forallb (vet_arg s r) (AStr g :: rest)) with true; [rewrite Hn; auto|].
    symmetry. apply forallb_forall. intros a [<-|Hin]; auto. rewrite forallb_forall in Hargs. specialize (Hargs a Hin).
    destruct a as [[] ? ?| | | |]; cbn in *; auto; discriminate. }
  rewrite P, Hf. unfold is_disallowed. rewrite Hg.
  destruct (s_level s); auto; destruct (mem_bytes f (s_allowed s)); auto.
Qed.

Definition all_vetted (w : world) : Prop := forall k p, nth_error w k = Some p -> vetted (p_sec p).

Lemma remote_args_none : forall args,
  forallb (fun a => match a with ARPath true _ _ => false | _ => true end) (remote_args args) = true.
Proof. induction args as [|[? ? ?| | | |] l IH]; cbn; auto. Qed.

Definition plain (args : list arg) : bool := forallb (fun a => match a with ARPath true _ _ => false | _ => true end) args.

Lemma call_minimal : forall w i j f args, all_vetted w -> i < length w -> j < length w ->
  In f req_minimal -> file_request f file_requests = None -> plain args = true -> call_ok w i j f args = true.
Proof.
  intros w i j f args Hv Hi Hj Hf Hn Hp. unfold call_ok. destruct (Nat.eqb i j); auto.
  destruct (nth_error w j) as [p|] eqn:Ep; [|apply nth_error_None in Ep; lia].
  unfold accepts. rewrite vet_minimal; eauto. cbn [andb].
  destruct i, j; auto.
  destruct (nth_error w 0) as [c|] eqn:Ec; [|apply nth_error_None in Ec; lia].
  rewrite vet_minimal; eauto; [cbn; auto|]. cbn. apply remote_args_none.
Qed.
Lemma call_global : forall w i j f g rest, all_vetted w -> i < length w -> j < length w ->
  mem_bytes f globals_requests = true -> file_request f file_requests = None -> plain rest = true ->
  mem_bytes g disallowed_server_globals = false -> call_ok w i j f (AStr g :: rest) = true.
Proof.
  intros w i j f g rest Hv Hi Hj Hf Hn Hp Hg. unfold call_ok. destruct (Nat.eqb i j); auto.
  destruct (nth_error w j) as [p|] eqn:Ep; [|apply nth_error_None in Ep; lia].
  unfold accepts. rewrite vet_global; eauto. cbn [andb].
  destruct i, j; auto.
  destruct (nth_error w 0) as [c|] eqn:Ec; [|apply nth_error_None in Ec; lia].
  rewrite vet_minimal; eauto; [cbn; auto|]. cbn. apply remote_args_none.
Qed.

(** ** Telling the others *)
Lemma tell_from_spec : forall f name args i js w,
  (forall p, p_sec (f p) = p_sec p) ->
  (forall w', length w' = length w -> all_vetted w' -> forall j, j < length w -> call_ok w' i j name args = true) ->
  all_vetted w -> (forall j, In j js -> j < length w) -> NoDup js ->
  exists w', tell_from w i name args f js = Some w' /\ length w' = length w /\
    forall k, nth_error w' k = if existsb (Nat.eqb k) js && negb (Nat.eqb i k) then option_map f (nth_error w k) else nth_error w k.
Proof.
  intros f name args i js. induction js as [|j js IH]; intros w Hf Hc Hv Hj Hd.
  - exists w. cbn. auto.
  - inversion Hd; subst. cbn [tell_from]. destruct (Nat.eqb i j) eqn:E.
    + apply Nat.eqb_eq in E. subst j.
      destruct (IH w Hf Hc Hv (fun j H => Hj j (or_intror H)) H2) as (w' & A & B & C).
      exists w'. repeat split; auto. intro k. rewrite C. cbn [existsb].
      destruct (Nat.eqb k i) eqn:Ek; cbn; auto. apply Nat.eqb_eq in Ek. subst k. rewrite Nat.eqb_refl. cbn.
      rewrite Bool.andb_false_r. reflexivity.
    + rewrite (Hc w eq_refl Hv j (Hj j (or_introl eq_refl))).
      assert (Hv' : all_vetted (upd w j f)).
      { intros k p Hk. rewrite upd_nth in Hk. destruct (Nat.eqb k j); [|eauto].
        destruct (nth_error w k) eqn:Ek; [|discriminate]. inversion Hk; subst. rewrite Hf. eauto. }
      destruct (IH (upd w j f) Hf) as (w' & A & B & C); auto.
      { intros w' Hl. rewrite upd_length in *. auto. }
      { intros j' Hj'. rewrite upd_length. apply Hj. right. auto. }
      rewrite upd_length in B. exists w'. repeat split; auto. intro k. rewrite C, upd_nth. cbn [existsb].
      destruct (Nat.eqb k j) eqn:Ek; cbn [orb]; auto.
      apply Nat.eqb_eq in Ek. subst k.
      replace (existsb (Nat.eqb j) js) with false; [cbn; rewrite E; auto|].
      symmetry. apply not_true_is_false. intro X. apply existsb_exists in X. destruct X as (y & Y & Z).
      apply Nat.eqb_eq in Z. subst. auto.
Qed.

Lemma in_seq_b : forall k n, existsb (Nat.eqb k) (seq 0 n) = (k <? n).
Proof.
  intros k n. destruct (k <? n) eqn:E.
  - apply existsb_exists. exists k. apply Nat.ltb_lt in E. rewrite in_seq, Nat.eqb_refl. lia.
  - apply not_true_is_false. intro H. apply existsb_exists in H. destruct H as (y & Y & Z).
    apply Nat.eqb_eq in Z. subst. apply in_seq in Y. apply Nat.ltb_ge in E. lia.
Qed.

Lemma tell_others_spec : forall f name args i w,
  (forall p, p_sec (f p) = p_sec p) ->
  (forall w', length w' = length w -> all_vetted w' -> forall j, j < length w -> call_ok w' i j name args = true) ->
  all_vetted w ->
  exists w', tell_others w i name args f = Some w' /\ length w' = length w /\
    forall k, nth_error w' k = if Nat.eqb i k then nth_error w k else option_map f (nth_error w k).
Proof.
  intros f name args i w Hf Hc Hv.
  destruct (tell_from_spec f name args i (seq 0 (length w)) w Hf Hc Hv) as (w' & A & B & C).
  - intros j Hj. apply in_seq in Hj. lia.
  - apply seq_NoDup.
  - exists w'. repeat split; auto. intro k. rewrite C, in_seq_b.
    destruct (Nat.eqb i k); [rewrite Bool.andb_false_r; auto|].
    destruct (k <? length w) eqn:E; cbn; auto.
    apply Nat.ltb_ge in E. apply nth_error_None in E. rewrite E. reflexivity.
Qed.

(** ** A session under way *)
Definition Ready (w : world) (j : nat) (lo : bool) : Prop :=
  j < length w /\ all_vetted w /\
  forall k p, nth_error w k = Some p ->
    p_writer p = Nat.eqb k j /\ p_bw p = Some j /\ p_log_open p = lo /\ p_elog_open p = true
    /\ (k = j -> p_log_w p = lo /\ p_elog_w p = true).

Definition becomes (w w' : world) (lg el : nat -> bytes) (n : nat -> nat) (t : nat -> list (bool * bytes)) : Prop :=
  length w' = length w /\
  forall k p, nth_error w k = Some p -> nth_error w' k = Some (grown p (lg k) (el k) (n k) (t k)).

Lemma grown_grown : forall p a b n t a' b' n' t',
  grown (grown p a b n t) a' b' n' t' = grown p (a ++ a') (b ++ b') (n + n') (t ++ t').
Proof. intros [] *. unfold grown. cbn. rewrite !app_assoc, Nat.add_assoc. reflexivity. Qed.
Lemma grown_nil : forall p, grown p [] [] 0 [] = p.
Proof. intros []. unfold grown. cbn. rewrite !app_nil_r, Nat.add_0_r. reflexivity. Qed.

Lemma becomes_refl : forall w, becomes w w (fun _ => []) (fun _ => []) (fun _ => 0) (fun _ => []).
Proof. intro w. split; auto. intros. rewrite grown_nil. auto. Qed.
Lemma becomes_trans : forall w w1 w2 a b n t a' b' n' t',
  becomes w w1 a b n t -> becomes w1 w2 a' b' n' t' ->
  becomes w w2 (fun k => a k ++ a' k) (fun k => b k ++ b' k) (fun k => n k + n' k) (fun k => t k ++ t' k).
Proof.
  intros * [L1 H1] [L2 H2]. split; [congruence|]. intros k p Hk.
  rewrite (H2 k _ (H1 k p Hk)), grown_grown. reflexivity.
Qed.
Lemma becomes_ext : forall w w' a b n t a' b' n' t',
  becomes w w' a b n t -> (forall k, k < length w -> a k = a' k /\ b k = b' k /\ n k = n' k /\ t k = t' k) ->
  becomes w w' a' b' n' t'.
Proof.
  intros * [L H] E. split; auto. intros k p Hk.
  assert (k < length w) by (apply nth_error_Some; congruence).
  destruct (E k H0) as (-> & -> & -> & ->) || idtac.
  destruct (E k H0) as (E1 & E2 & E3 & E4). rewrite <- E1, <- E2, <- E3, <- E4. auto.
Qed.

Lemma becomes_back : forall w w' a b n t k p', becomes w w' a b n t -> nth_error w' k = Some p' ->
  exists p, nth_error w k = Some p /\ p' = grown p (a k) (b k) (n k) (t k).
Proof.
  intros * [L H] Hk. destruct (nth_error w k) as [p|] eqn:E.
  - exists p. split; auto. rewrite (H k p E) in Hk. congruence.
  - apply nth_error_None in E. assert (k < length w') by (apply nth_error_Some; congruence). lia.
Qed.

Lemma ready_becomes : forall w w' j lo a b n t, Ready w j lo -> becomes w w' a b n t -> Ready w' j lo.
Proof.
  intros * (Hj & Hv & Hr) B. assert (L := proj1 B). split; [lia|]. split.
  - intros k p' Hk. destruct (becomes_back _ _ _ _ _ _ _ _ B Hk) as (p & Hp & ->). cbn. eauto.
  - intros k p' Hk. destruct (becomes_back _ _ _ _ _ _ _ _ B Hk) as (p & Hp & ->). cbn. apply Hr; auto.
Qed.

Lemma format_known : forall stamp verb v m, known v -> exists s, format_msg stamp verb v m = Some s.
Proof.
  intros stamp verb v m H. unfold format_msg. unfold known in H. cbn in H.
  destruct (verb <=? V_DEBUG); [destruct ((v =? V_NONE) || ((v =? V_INFO) && preformatted m)); eauto|];
  repeat (destruct H as [<-|H]; [cbn; eauto|]); tauto.
Qed.

Definition file_v (w : world) (j : nat) : nat := match nth_error w j with Some p => p_file_v p | None => 0 end.

Lemma log_to_file_ok : forall stamp w j lo m v, Ready w j lo -> lo = true -> known v ->
  exists w', log_to_file stamp w j m v = Some w' /\
    becomes w w' (fun k => if Nat.eqb k j then text stamp (file_v w j) v m else []) (fun _ => []) (fun _ => 0) (fun _ => []).
Proof.
  intros stamp w j lo m v (Hj & Hv & Hr) -> Kv. unfold log_to_file, file_v.
  destruct (nth_error w j) as [p|] eqn:Ep; [|apply nth_error_None in Ep; lia].
  destruct (format_known stamp (p_file_v p) v m Kv) as (s & Es). rewrite Es.
  destruct (Hr j p Ep) as (_ & _ & _ & _ & Hw). destruct (Hw eq_refl) as [-> _].
  eexists. split; [reflexivity|]. split; [apply upd_length|]. intros k q Hk. rewrite upd_nth.
  destruct (Nat.eqb k j) eqn:E.
  - apply Nat.eqb_eq in E. subst k. rewrite Hk. cbn. rewrite Ep in Hk. inversion Hk; subst q.
    unfold text. rewrite Es. destruct p; unfold grown; cbn. rewrite !app_nil_r, Nat.add_0_r. reflexivity.
  - rewrite grown_nil. auto.
Qed.

Lemma log_to_term_ok : forall stamp w i m v, i < length w -> known v ->
  exists w', log_to_term stamp w i m v = Some w' /\
    becomes w w' (fun k => []) (fun _ => []) (fun _ => 0)
      (fun k => if Nat.eqb k i then match nth_error w i with
                | Some p => [((v =? 1) || (v =? 2) || p_server p, text stamp (p_term_v p) v m)] | None => [] end else []).
Proof.
  intros stamp w i m v Hi Kv. unfold log_to_term.
  destruct (nth_error w i) as [p|] eqn:Ep; [|apply nth_error_None in Ep; lia].
  destruct (format_known stamp (p_term_v p) v m Kv) as (s & Es). rewrite Es.
  eexists. split; [reflexivity|]. split; [apply upd_length|]. intros k q Hk. rewrite upd_nth.
  destruct (Nat.eqb k i) eqn:E.
  - apply Nat.eqb_eq in E. subst k. rewrite Hk. cbn. rewrite Ep in Hk. inversion Hk; subst q.
    unfold text. rewrite Es. destruct p; unfold grown; cbn. rewrite !app_nil_r, Nat.add_0_r. reflexivity.
  - rewrite grown_nil. auto.
Qed.

Lemma minimal_log : In (bs "log.Log.log_to_file") req_minimal. Proof. apply mem_bytes_in. reflexivity. Qed.
Lemma minimal_elog : In (bs "log.ErrorLog.log_to_file") req_minimal. Proof. apply mem_bytes_in. reflexivity. Qed.

Lemma log_call_ok : forall stamp w j lo i m v, Ready w j lo -> i < length w -> known v ->
  exists w', log_call stamp w i m v = Some w' /\
    becomes w w' (fun k => if Nat.eqb k j && lo then to_log stamp w (file_v w j) (i, m, v) else []) (fun _ => []) (fun _ => 0)
      (fun k => to_term stamp w k (i, m, v)).
Proof.
  intros stamp w j lo i m v R Hi Kv. unfold log_call.
  destruct (nth_error w i) as [p|] eqn:Ep; [|apply nth_error_None in Ep; lia].
  assert (R' := R). destruct R' as (Hj & Hv & Hr). destruct (Hr i p Ep) as (Hw & Hb & Hlo & _ & _).
  destruct ((p_file_v p <? v) && (p_term_v p <? v)) eqn:E0.
  { apply andb_true_iff in E0. destruct E0 as [A B]. apply Nat.ltb_lt in A. apply Nat.ltb_lt in B.
    exists w. split; auto. eapply becomes_ext; [apply becomes_refl|]. intros k Hk. unfold to_log, to_term. rewrite Ep.
    replace (v <=? p_file_v p) with false by (symmetry; apply Nat.leb_gt; lia).
    repeat split; auto.
    - destruct (Nat.eqb k j && lo); auto.
    - destruct (nth_error w k) as [q|] eqn:Eq; auto. destruct (Nat.eqb i k) eqn:Eik; cbn [andb]; auto.
      apply Nat.eqb_eq in Eik. subst k. rewrite Ep in Eq. inversion Eq; subst.
      replace (v <=? p_term_v q) with false by (symmetry; apply Nat.leb_gt; lia). auto. }
  rewrite Hlo, Hw, Hb.
  assert (F : exists w1, (if (v <=? p_file_v p) && lo then if Nat.eqb i j then log_to_file stamp w i m v
            else if call_ok w i j (bs "log.Log.log_to_file") [AStr m; AOther] then log_to_file stamp w j m v else None
            else Some w) = Some w1 /\ becomes w w1 (fun k => if Nat.eqb k j && lo then to_log stamp w (file_v w j) (i, m, v) else [])
            (fun _ => []) (fun _ => 0) (fun _ => [])).
  { destruct ((v <=? p_file_v p) && lo) eqn:E1.
    - apply andb_true_iff in E1. destruct E1 as [A B].
      destruct (log_to_file_ok stamp w j lo m v R B Kv) as (w1 & X & Y). exists w1. split.
      + destruct (Nat.eqb i j) eqn:Eij; [apply Nat.eqb_eq in Eij; subst i; auto|].
        rewrite call_minimal; auto using minimal_log; reflexivity.
      + eapply becomes_ext; [apply Y|]. intros k Hk. cbn. rewrite B, Bool.andb_true_r. unfold to_log. rewrite Ep, A. auto.
    - exists w. split; auto. eapply becomes_ext; [apply becomes_refl|]. intros k Hk. repeat split; auto.
      destruct (Nat.eqb k j && lo) eqn:E2; auto. apply andb_true_iff in E2. destruct E2 as [_ B]. rewrite B in E1.
      rewrite Bool.andb_true_r in E1. unfold to_log. rewrite Ep, E1. auto. }
  destruct F as (w1 & X & Y). rewrite X.
  destruct (v <=? p_term_v p) eqn:Et.
  - assert (Hi1 : i < length w1) by (rewrite (proj1 Y); auto).
    destruct (log_to_term_ok stamp w1 i m v Hi1 Kv) as (w2 & X2 & Y2). exists w2. split; auto.
    eapply becomes_ext; [apply (becomes_trans _ _ _ _ _ _ _ _ _ _ _ Y Y2)|]. intros k Hk. cbn beta.
    rewrite !app_nil_r. repeat split; auto. cbn [app].
    unfold to_term. rewrite (proj2 Y i p Ep). cbn.
    destruct (nth_error w k) as [q|] eqn:Eq; [|apply nth_error_None in Eq; lia].
    rewrite Nat.eqb_sym. destruct (Nat.eqb i k) eqn:Eik; cbn [andb]; auto.
    apply Nat.eqb_eq in Eik. subst k. rewrite Ep in Eq. inversion Eq; subst. rewrite Et. auto.
  - exists w1. split; auto. eapply becomes_ext; [apply Y|]. intros k Hk. repeat split; auto.
    unfold to_term. destruct (nth_error w k) as [q|] eqn:Eq; auto.
    destruct (Nat.eqb i k) eqn:Eik; cbn [andb]; auto.
    apply Nat.eqb_eq in Eik. subst k. rewrite Ep in Eq. inversion Eq; subst. rewrite Et. auto.
Qed.

(** what depends on the configuration only *)
Lemma becomes_conf : forall w w' a b n t, becomes w w' a b n t ->
  (forall j, j < length w -> file_v w' j = file_v w j)
  /\ (forall stamp fv x, to_log stamp w' fv x = to_log stamp w fv x)
  /\ (forall stamp k x, to_term stamp w' k x = to_term stamp w k x)
  /\ (forall j e, said w' j e = said w j e).
Proof.
  intros * B.
  assert (C : forall k, nth_error w' k = option_map (fun p => grown p (a k) (b k) (n k) (t k)) (nth_error w k)).
  { intro k. destruct (nth_error w k) as [p|] eqn:E; [apply (proj2 B); auto|].
    apply nth_error_None in E. apply nth_error_None. rewrite (proj1 B). auto. }
  repeat split.
  - intros j Hj. unfold file_v. rewrite C. destruct (nth_error w j); reflexivity.
  - intros stamp fv [[i m] v]. unfold to_log. rewrite C. destruct (nth_error w i); reflexivity.
  - intros stamp k [[i m] v]. unfold to_term. rewrite C. destruct (nth_error w k); reflexivity.
  - intros j [i [[] ? ? ?|?|]|? ? ?]; cbn; auto. rewrite C. destruct (nth_error w i); reflexivity.
Qed.

Lemma elog_to_file_ok : forall stamp w j lo e, Ready w j lo ->
  exists w', elog_to_file stamp w j e = Some w' /\
    becomes w w' (fun k => if Nat.eqb k j && lo then to_log stamp w (file_v w j) (j, err_string e, 2) else [])
      (fun k => if Nat.eqb k j then entry (match nth_error w j with Some p => p_null p | None => false end) e else []) (fun _ => 0)
      (fun k => to_term stamp w k (j, err_string e, 2)).
Proof.
  intros stamp w j lo e R. unfold elog_to_file.
  assert (K : known 2) by (unfold known; cbn; tauto).
  destruct (log_call_ok stamp w j lo j (err_string e) 2 R (proj1 R) K) as (w1 & X & Y). unfold V_WARNING. rewrite X.
  assert (R1 := ready_becomes _ _ _ _ _ _ _ _ R Y).
  destruct (nth_error w1 j) as [p|] eqn:Ep; [|apply nth_error_None in Ep; destruct R1; lia].
  destruct (proj2 (proj2 R1) j p Ep) as (_ & _ & _ & _ & Hw). destruct (Hw eq_refl) as [_ ->].
  eexists. split; [reflexivity|].
  destruct (becomes_back _ _ _ _ _ _ _ _ Y Ep) as (p0 & Ep0 & Hp0).
  split; [rewrite upd_length; apply Y|]. intros k q Hk. rewrite upd_nth.
  rewrite (proj2 Y k q Hk).
  destruct (Nat.eqb k j) eqn:E.
  - apply Nat.eqb_eq in E. subst k. rewrite Hk in Ep0. inversion Ep0; subst q. rewrite Hk.
    replace (p_null p) with (p_null p0) by (subst p; reflexivity).
    unfold entry. rewrite Hp0. cbn [andb]. unfold grown. cbn. rewrite !app_nil_r. reflexivity.
  - reflexivity.
Qed.

Lemma elog_call_ok : forall stamp w j lo i e, Ready w j lo -> i = j \/ (i < length w /\ foreign e) ->
  exists w', elog_call stamp w i e = Some w' /\
    becomes w w' (fun k => if Nat.eqb k j && lo then to_log stamp w (file_v w j) (j, err_string e, 2) else [])
      (fun k => if Nat.eqb k j then entry (match nth_error w j with Some p => p_null p | None => false end) e else []) (fun _ => 0)
      (fun k => to_term stamp w k (j, err_string e, 2)).
Proof.
  intros stamp w j lo i e R Hi. destruct (elog_to_file_ok stamp w j lo e R) as (w' & X & Y). exists w'. split; auto.
  assert (Hl : i < length w) by (destruct Hi as [->|[? ?]]; [destruct R|]; auto).
  unfold elog_call. destruct (nth_error w i) as [p|] eqn:Ep; [|apply nth_error_None in Ep; lia].
  destruct (proj2 (proj2 R) i p Ep) as (Hw & Hb & _ & He & _). rewrite He, Hw, Hb.
  destruct (Nat.eqb i j) eqn:E; [apply Nat.eqb_eq in E; subst; auto|].
  destruct Hi as [->|[_ Hf]]; [rewrite Nat.eqb_refl in E; discriminate|].
  rewrite call_minimal; auto using minimal_elog; try apply R; try reflexivity.
  unfold plain. cbn. unfold foreign in Hf. destruct (e_arg e) as [[] ? ?| | | |]; cbn; auto.
Qed.

Lemma count_error_ok : forall w j lo i, Ready w j lo -> i = j \/ (i < length w /\ obeys w j) ->
  exists w', count_error w i = Some w' /\
    becomes w w' (fun _ => []) (fun _ => []) (fun k => if Nat.eqb k j then 1 else 0) (fun _ => []).
Proof.
  intros w j lo i R Hi. assert (Hl : i < length w) by (destruct Hi as [->|[? ?]]; [destruct R|]; auto).
  exists (upd w j (fun p => set_errors (S (p_errors p)) p)). split.
  - unfold count_error. destruct (nth_error w i) as [p|] eqn:Ep; [|apply nth_error_None in Ep; lia].
    destruct (proj2 (proj2 R) i p Ep) as (Hw & Hb & _). rewrite Hw, Hb.
    destruct (Nat.eqb i j) eqn:E; [apply Nat.eqb_eq in E; subst; auto|].
    destruct Hi as [->|[_ (q & Eq & Lv)]]; [rewrite Nat.eqb_refl in E; discriminate|].
    replace (call_ok w i j (bs "sstats.SessionStats.add_error_local") []) with true; auto. symmetry.
    unfold call_ok. rewrite E, Eq. unfold accepts at 1. unfold vet_request. rewrite Lv. cbn [andb].
    destruct i, j; auto.
    destruct (nth_error w 0) as [c|] eqn:Ec; [|apply nth_error_None in Ec; lia].
    unfold accepts. rewrite vet_minimal; auto; [apply (proj1 (proj2 R) 0 c Ec)|apply mem_bytes_in; reflexivity].
  - split; [apply upd_length|]. intros k q Hk. rewrite upd_nth, Hk. destruct (Nat.eqb k j); cbn.
    + destruct q; unfold grown; cbn. rewrite !app_nil_r, Nat.add_1_r. reflexivity.
    + rewrite grown_nil. reflexivity.
Qed.

Lemma obeys_becomes : forall w w' j a b n t, becomes w w' a b n t -> obeys w j -> obeys w' j.
Proof. intros * B (p & E & L). eexists. split; [apply (proj2 B j p E)|]. auto. Qed.

Definition null_of (w : world) (j : nat) : bool := match nth_error w j with Some p => p_null p | None => false end.

Definition ev_log stamp (w : world) (j : nat) (lo : bool) (l : list event) (k : nat) : bytes :=
  if Nat.eqb k j && lo then flat_map (to_log stamp w (file_v w j)) (flat_map (said w j) l) else [].
Definition ev_elog (w : world) (j : nat) (l : list event) (k : nat) : bytes :=
  if Nat.eqb k j then flat_map (entry (null_of w j)) (flat_map errors_of l) else [].
Definition ev_count (j : nat) (l : list event) (k : nat) : nat :=
  if Nat.eqb k j then list_sum (map counts l) else 0.
Definition ev_term stamp (w : world) (j : nat) (l : list event) (k : nat) : list (bool * bytes) :=
  flat_map (to_term stamp w k) (flat_map (said w j) l).

Lemma happen_ok : forall stamp w j lo e, Ready w j lo -> fine w j e ->
  exists w', happen stamp w e = Some w' /\
    becomes w w' (ev_log stamp w j lo [e]) (ev_elog w j [e]) (ev_count j [e]) (ev_term stamp w j [e]).
Proof.
  intros stamp w j lo e R F. destruct e as [i [c rt tb h|x|]|i m v]; cbn [fine] in F; try tauto.
  - destruct c; [|tauto]. cbn [happen meet]. unfold log_exception.
    assert (Hi : i < length w) by (destruct F as [->|(? & _)]; [destruct R|]; auto).
    assert (K : known 5) by (unfold known; cbn; tauto). assert (K2 : known 2) by (unfold known; cbn; tauto).
    destruct (nth_error w i) as [p|] eqn:Ep; [|apply nth_error_None in Ep; lia]. cbn [negb orb].
    destruct (log_call_ok stamp w j lo i (one_line p tb) 5 R Hi K) as (w1 & X1 & Y1).
    unfold V_INFO. rewrite X1.
    assert (R1 := ready_becomes _ _ _ _ _ _ _ _ R Y1).
    assert (F1 : i = j \/ (i < length w1 /\ obeys w1 j)).
    { destruct F as [->|(A & B & _)]; auto. right. rewrite (proj1 Y1). split; auto. eapply obeys_becomes; eauto. }
    destruct (count_error_ok w1 j lo i R1 F1) as (w2 & X2 & Y2). rewrite X2.
    assert (R2 := ready_becomes _ _ _ _ _ _ _ _ R1 Y2).
    assert (Y12 := becomes_trans _ _ _ _ _ _ _ _ _ _ _ Y1 Y2).
    destruct (becomes_conf _ _ _ _ _ _ Y12) as (C1 & C2 & C3 & C4).
    assert (Ej : j < length w) by (destruct R; auto).
    destruct h as [x|m|]; cbn [run_handler].
    + assert (F2 : i = j \/ (i < length w2 /\ foreign x)).
      { destruct F as [->|(A & _ & B)]; auto. right. rewrite (proj1 Y12). auto. }
      destruct (elog_call_ok stamp w2 j lo i x R2 F2) as (w3 & X3 & Y3). exists w3. split; auto.
      assert (Y := becomes_trans _ _ _ _ _ _ _ _ _ _ _ Y12 Y3).
      eapply becomes_ext; [apply Y|]. intros k Hk. cbn beta. rewrite C1, C2, C3 by auto.
      unfold ev_log, ev_elog, ev_count, ev_term. cbn [said errors_of counts flat_map app map list_sum fold_right].
      rewrite Ep. rewrite !app_nil_r.
      destruct (nth_error w j) as [pj|] eqn:Epj; [|apply nth_error_None in Epj; lia].
      unfold null_of. rewrite (proj2 Y12 j pj Epj), Epj. cbn [flat_map app].
      rewrite !app_nil_r. repeat split.
      * destruct (Nat.eqb k j && lo); auto.
      * destruct (Nat.eqb k j); rewrite ?Nat.add_0_r; reflexivity.
    + assert (Hi2 : i < length w2) by (rewrite (proj1 Y12); auto).
      destruct (log_call_ok stamp w2 j lo i m 2 R2 Hi2 K2) as (w3 & X3 & Y3). exists w3. split; auto.
      assert (Y := becomes_trans _ _ _ _ _ _ _ _ _ _ _ Y12 Y3).
      eapply becomes_ext; [apply Y|]. intros k Hk. cbn beta. rewrite C1, C2, C3 by auto.
      unfold ev_log, ev_elog, ev_count, ev_term. cbn [said errors_of counts flat_map app map list_sum fold_right].
      rewrite Ep. rewrite !app_nil_r. repeat split.
      * destruct (Nat.eqb k j && lo); auto.
      * destruct (Nat.eqb k j); reflexivity.
      * destruct (Nat.eqb k j); rewrite ?Nat.add_0_r; reflexivity.
    + exists w2. split; auto. eapply becomes_ext; [apply Y12|]. intros k Hk. cbn beta.
      unfold ev_log, ev_elog, ev_count, ev_term. cbn [said errors_of counts flat_map app map list_sum fold_right].
      rewrite Ep. rewrite !app_nil_r. repeat split. destruct (Nat.eqb k j); reflexivity.
  - cbn [happen meet]. destruct (elog_call_ok stamp w j lo i x R F) as (w1 & X1 & Y1). exists w1. split; auto.
    eapply becomes_ext; [apply Y1|]. intros k Hk. cbn beta.
    unfold ev_log, ev_elog, ev_count, ev_term. cbn [said errors_of counts flat_map app map list_sum fold_right].
    rewrite !app_nil_r. repeat split. destruct (Nat.eqb k j); reflexivity.
  - destruct F as [Hi Kv]. cbn [happen]. destruct (log_call_ok stamp w j lo i m v R Hi Kv) as (w1 & X1 & Y1).
    exists w1. split; auto. eapply becomes_ext; [apply Y1|]. intros k Hk. cbn beta.
    unfold ev_log, ev_elog, ev_count, ev_term. cbn [said errors_of counts flat_map app map list_sum fold_right].
    rewrite !app_nil_r. repeat split. destruct (Nat.eqb k j); reflexivity. destruct (Nat.eqb k j); reflexivity.
Qed.

Lemma session_ok : forall stamp l w j lo, Ready w j lo -> Forall (fine w j) l ->
  exists w', session stamp w l = Some w' /\
    becomes w w' (ev_log stamp w j lo l) (ev_elog w j l) (ev_count j l) (ev_term stamp w j l).
Proof.
  intros stamp l. induction l as [|e l IH]; intros w j lo R F.
  - exists w. split; auto. eapply becomes_ext; [apply becomes_refl|]. intros k Hk.
    unfold ev_log, ev_elog, ev_count, ev_term. cbn. repeat split; auto; destruct (Nat.eqb k j); destruct lo; auto.
  - inversion F; subst. destruct (happen_ok stamp w j lo e R H1) as (w1 & X1 & Y1).
    assert (R1 := ready_becomes _ _ _ _ _ _ _ _ R Y1).
    assert (F1 : Forall (fine w1 j) l).
    { eapply Forall_impl; [|apply H2]. intros e' Fe. destruct e' as [i' [[] ? ? ?|?|]|i' ? ?]; cbn in *; auto; rewrite (proj1 Y1); auto.
      destruct Fe as [->|(A & B & C)]; auto. right. repeat split; auto. eapply obeys_becomes; eauto. }
    destruct (IH w1 j lo R1 F1) as (w2 & X2 & Y2). exists w2. split; [cbn [session]; rewrite X1; auto|].
    assert (Y := becomes_trans _ _ _ _ _ _ _ _ _ _ _ Y1 Y2).
    destruct (becomes_conf _ _ _ _ _ _ Y1) as (C1 & C2 & C3 & C4).
    assert (Hj : j < length w) by (destruct R; auto).
    eapply becomes_ext; [apply Y|]. intros k Hk. cbn beta.
    assert (N : null_of w1 j = null_of w j).
    { unfold null_of. destruct (nth_error w j) as [p|] eqn:Ep; [rewrite (proj2 Y1 j p Ep); auto|].
      apply nth_error_None in Ep. lia. }
    assert (S1 : flat_map (said w1 j) l = flat_map (said w j) l) by (apply flat_map_ext; auto).
    unfold ev_log, ev_elog, ev_count, ev_term. rewrite S1, C1, N by auto.
    rewrite (flat_map_ext _ _ (C2 stamp (file_v w j))), (flat_map_ext _ _ (C3 stamp k)).
    cbn [flat_map map list_sum fold_right]. rewrite !app_nil_r.
    repeat split.
    + destruct (Nat.eqb k j && lo); auto. rewrite flat_map_app. auto.
    + destruct (Nat.eqb k j); auto. rewrite flat_map_app. auto.
    + destruct (Nat.eqb k j); auto.
    + rewrite flat_map_app. auto.
Qed.

(** ** Setting up *)
Lemma fresh_vetted : forall w, Forall fresh w -> all_vetted w.
Proof.
  intros w F k p Hk. rewrite Forall_forall in F. apply nth_error_In in Hk. destruct (F p Hk) as (_ & _ & _ & _ & _ & _ & tmp & cl & lv & r & c & H).
  eapply initialize_vetted; eauto.
Qed.
Lemma upd_vetted : forall w i f, (forall p, p_sec (f p) = p_sec p) -> all_vetted w -> all_vetted (upd w i f).
Proof.
  intros w i f Hf Hv k p Hk. rewrite upd_nth in Hk. destruct (Nat.eqb k i); [|eauto].
  destruct (nth_error w k) eqn:E; [|discriminate]. inversion Hk; subst. rewrite Hf. eauto.
Qed.

Ltac minimal := apply mem_bytes_in; reflexivity.

Lemma know_writer_ok : forall w j, all_vetted w -> j < length w ->
  exists w', know_writer w j = Some w' /\ length w' = length w /\
    forall k, nth_error w' k = option_map (fun p => if Nat.eqb k j then set_writer (set_bw j p) else set_bw j p) (nth_error w k).
Proof.
  intros w j Hv Hj. unfold know_writer.
  assert (Hv0 : all_vetted (upd w 0 (set_bw j))) by (apply upd_vetted; auto).
  destruct (tell_others_spec (set_bw j) f_set_local [AStr (bs "backup_writer"); AOther] 0 (upd w 0 (set_bw j))) as (w1 & A & B & C); auto.
  { intros w' Hl Hv' k Hk. rewrite upd_length in *. apply call_global; auto; lia. }
  rewrite A. rewrite upd_length in B.
  assert (C' : forall k, nth_error w1 k = option_map (set_bw j) (nth_error w k)).
  { intro k. rewrite C, upd_nth. destruct (Nat.eqb 0 k) eqn:E; rewrite Nat.eqb_sym, E; auto. }
  assert (Hv1 : all_vetted w1).
  { intros k p Hk. rewrite C' in Hk. destruct (nth_error w k) eqn:E; [|discriminate]. inversion Hk; subst. cbn. eauto. }
  rewrite call_global; auto; try lia.
  eexists. split; [reflexivity|]. rewrite upd_length. split; auto. intro k. rewrite upd_nth, C'.
  destruct (Nat.eqb k j); destruct (nth_error w k); reflexivity.
Qed.

Lemma open_logfile_ok : forall w j, all_vetted w -> j < length w ->
  (forall p, nth_error w j = Some p -> p_log_open p = false) ->
  exists w', open_logfile w j = Some w' /\ length w' = length w /\
    forall k, nth_error w' k = option_map (fun p => if Nat.eqb k j then set_log_open true (set_log_w true p) else set_log_open true p) (nth_error w k).
Proof.
  intros w j Hv Hj Ho. unfold open_logfile.
  destruct (nth_error w j) as [p|] eqn:Ep; [|apply nth_error_None in Ep; lia]. rewrite (Ho p eq_refl).
  destruct (tell_others_spec (set_log_open true) (bs "log.Log.open_logfile_local") [] j (upd w j (fun p => set_log_open true (set_log_w true p)))) as (w1 & A & B & C); auto.
  { intros w' Hl Hv' k Hk. rewrite upd_length in *. apply call_minimal; auto; try lia. minimal. }
  { apply upd_vetted; auto. }
  rewrite upd_length in B. exists w1. split; auto. split; auto. intro k. rewrite C, upd_nth, Nat.eqb_sym.
  destruct (Nat.eqb k j); auto.
Qed.
Lemma open_elogfile_ok : forall w j, all_vetted w -> j < length w ->
  (forall p, nth_error w j = Some p -> p_elog_open p = false) ->
  exists w', open_elogfile w j = Some w' /\ length w' = length w /\
    forall k, nth_error w' k = option_map (fun p => if Nat.eqb k j then set_elog_open true (set_elog_w true p) else set_elog_open true p) (nth_error w k).
Proof.
  intros w j Hv Hj Ho. unfold open_elogfile.
  destruct (nth_error w j) as [p|] eqn:Ep; [|apply nth_error_None in Ep; lia]. rewrite (Ho p eq_refl).
  destruct (tell_others_spec (set_elog_open true) (bs "log.ErrorLog.open_logfile_local") [] j (upd w j (fun p => set_elog_open true (set_elog_w true p)))) as (w1 & A & B & C); auto.
  { intros w' Hl Hv' k Hk. rewrite upd_length in *. apply call_minimal; auto; try lia. minimal. }
  { apply upd_vetted; auto. }
  rewrite upd_length in B. exists w1. split; auto. split; auto. intro k. rewrite C, upd_nth, Nat.eqb_sym.
  destruct (Nat.eqb k j); auto.
Qed.

(** the process [k] of a backup session writing to process [j], once set up *)
Definition started (j : nat) (lo : bool) (k : nat) (p : proc) : proc :=
  mk_proc (p_server p) (Nat.eqb k j) (Some j) (p_null p) lo true (p_file_v p) (p_term_v p)
    (p_parsable p) (p_sec p) (Nat.eqb k j && lo) (Nat.eqb k j) (p_log p) (p_elog p) (p_errors p) (p_term p).

Lemma mapped_vetted : forall w w' (g : nat -> proc -> proc), all_vetted w -> (forall k p, p_sec (g k p) = p_sec p) ->
  (forall k, nth_error w' k = option_map (g k) (nth_error w k)) -> all_vetted w'.
Proof.
  intros w w' g Hv Hs C k p Hk. rewrite C in Hk. destruct (nth_error w k) eqn:E; [|discriminate]. inversion Hk; subst. rewrite Hs. eauto.
Qed.

Lemma start_ok : forall w j, Forall fresh w -> j < length w ->
  exists w', session_start w j true = Some w' /\ length w' = length w /\
    (forall k, nth_error w' k = option_map (started j (0 <? file_v w j) k) (nth_error w k)).
Proof.
  intros w j F Hj. assert (Hv := fresh_vetted w F). unfold session_start.
  destruct (know_writer_ok w j Hv Hj) as (w1 & A1 & B1 & C1). rewrite A1.
  assert (Hv1 : all_vetted w1).
  { eapply mapped_vetted; [apply Hv| |apply C1]. intros k p. cbn beta. destruct (Nat.eqb k j); reflexivity. }
  rewrite call_minimal; auto; try lia; [|minimal].
  unfold setup_logging.
  destruct (nth_error w j) as [pj|] eqn:Ej; [|apply nth_error_None in Ej; lia].
  rewrite Forall_forall in F.
  assert (Fk : forall k p, nth_error w k = Some p -> fresh p) by (intros k p Hk; apply F; eapply nth_error_In; eauto).
  rewrite C1, Ej. cbn [option_map]. rewrite Nat.eqb_refl.
  replace (p_file_v (set_writer (set_bw j pj))) with (p_file_v pj) by reflexivity.
  assert (Ef : file_v w j = p_file_v pj) by (unfold file_v; rewrite Ej; auto). rewrite Ef.
  assert (S2 : exists w2, (if 0 <? p_file_v pj then open_logfile w1 j else Some w1) = Some w2 /\ length w2 = length w /\
    forall k, nth_error w2 k = option_map (fun p => mk_proc (p_server p) (Nat.eqb k j) (Some j) (p_null p) (0 <? p_file_v pj) false (p_file_v p) (p_term_v p)
    (p_parsable p) (p_sec p) (Nat.eqb k j && (0 <? p_file_v pj)) false (p_log p) (p_elog p) (p_errors p) (p_term p)) (nth_error w k)).
  { destruct (0 <? p_file_v pj) eqn:E0.
    - destruct (open_logfile_ok w1 j Hv1) as (w2 & A2 & B2 & C2); [lia| |].
      { intros p Hp. rewrite C1, Ej in Hp. cbn in Hp. rewrite Nat.eqb_refl in Hp. inversion Hp; subst. cbn. apply (Fk j pj Ej). }
      exists w2. rewrite A2. split; auto. split; [lia|]. intro k. rewrite C2, C1. destruct (nth_error w k) as [p|] eqn:Ek; auto.
      destruct (Fk k p Ek) as (W1 & W2 & W3 & W4 & W5 & W6 & _). destruct p; cbn in *. subst.
      destruct (Nat.eqb k j); reflexivity.
    - exists w1. split; auto. split; auto. intro k. rewrite C1. destruct (nth_error w k) as [p|] eqn:Ek; auto.
      destruct (Fk k p Ek) as (W1 & W2 & W3 & W4 & W5 & W6 & _). destruct p; cbn in *. subst.
      destruct (Nat.eqb k j); reflexivity. }
  destruct S2 as (w2 & A2 & B2 & C2). rewrite A2.
  assert (Hv2 : all_vetted w2) by (eapply mapped_vetted; [apply Hv| |apply C2]; reflexivity).
  destruct (open_elogfile_ok w2 j Hv2) as (w3 & A3 & B3 & C3); [lia| |].
  { intros p Hp. rewrite C2, Ej in Hp. cbn in Hp. inversion Hp; subst. reflexivity. }
  exists w3. split; auto. split; [lia|]. intro k. rewrite C3, C2. destruct (nth_error w k) as [p|] eqn:Ek; auto.
  generalize (0 <? p_file_v pj) as lo. intro lo. cbn. unfold started. destruct (Nat.eqb k j); reflexivity.
Qed.

Lemma start_ready : forall w w' j, Forall fresh w -> j < length w -> session_start w j true = Some w' ->
  Ready w' j (0 <? file_v w j) /\ length w' = length w
  /\ (forall k, nth_error w' k = option_map (started j (0 <? file_v w j) k) (nth_error w k)).
Proof.
  intros w w' j F Hj H. destruct (start_ok w j F Hj) as (w1 & A & B & C). rewrite A in H. inversion H; subst w1.
  split; [|auto]. split; [lia|]. split.
  - eapply mapped_vetted; [apply (fresh_vetted w F)| |apply C]. reflexivity.
  - intros k p Hk. rewrite C in Hk. destruct (nth_error w k) as [q|] eqn:Eq; [|discriminate]. inversion Hk; subst. cbn.
    repeat split; auto; subst; rewrite Nat.eqb_refl; auto.
Qed.

Lemma started_conf : forall w w' j lo, (forall k, nth_error w' k = option_map (started j lo k) (nth_error w k)) ->
  file_v w' j = file_v w j /\ null_of w' j = null_of w j
  /\ (forall stamp fv x, to_log stamp w' fv x = to_log stamp w fv x)
  /\ (forall stamp k x, to_term stamp w' k x = to_term stamp w k x)
  /\ (forall e, said w' j e = said w j e).
Proof.
  intros w w' j lo C. repeat split.
  - unfold file_v. rewrite C. destruct (nth_error w j); reflexivity.
  - unfold null_of. rewrite C. destruct (nth_error w j); reflexivity.
  - intros stamp fv [[i m] v]. unfold to_log. rewrite C. destruct (nth_error w i); reflexivity.
  - intros stamp k [[i m] v]. unfold to_term. rewrite C. destruct (nth_error w k); reflexivity.
  - intros [i [[] ? ? ?|?|]|? ? ?]; cbn; auto. rewrite C. destruct (nth_error w i); reflexivity.
Qed.

Theorem whole_session : forall stamp w j l p, Forall fresh w -> nth_error w j = Some p -> Forall (fine w j) l ->
  exists w1 w2, session_start w j true = Some w1 /\ session stamp w1 l = Some w2 /\ length w2 = length w /\
    forall k q, nth_error w k = Some q ->
      nth_error w2 k = Some (grown (started j (0 <? p_file_v p) k q)
        (if Nat.eqb k j && (0 <? p_file_v p) then flat_map (to_log stamp w (p_file_v p)) (flat_map (said w j) l) else [])
        (if Nat.eqb k j then flat_map (entry (p_null p)) (flat_map errors_of l) else [])
        (if Nat.eqb k j then list_sum (map counts l) else 0)
        (flat_map (to_term stamp w k) (flat_map (said w j) l))).
Proof.
  intros stamp w j l p F Hp Hl. assert (Hj : j < length w) by (apply nth_error_Some; congruence).
  destruct (start_ok w j F Hj) as (w1 & A & B & C). exists w1.
  destruct (start_ready w w1 j F Hj A) as (R & _ & _).
  assert (Ef : file_v w j = p_file_v p) by (unfold file_v; rewrite Hp; auto).
  assert (En : null_of w j = p_null p) by (unfold null_of; rewrite Hp; auto).
  rewrite Ef in *.
  destruct (started_conf w w1 j _ C) as (D1 & D2 & D3 & D4 & D5).
  assert (Hl1 : Forall (fine w1 j) l).
  { eapply Forall_impl; [|apply Hl]. intros e' Fe. destruct e' as [i' [[] ? ? ?|?|]|i' ? ?]; cbn in *; auto; rewrite B; auto.
    destruct Fe as [->|(X & (q & Eq & Lq) & Z)]; auto. right. repeat split; auto. exists (started j (0 <? p_file_v p) j q).
    rewrite C, Eq. auto. }
  destruct (session_ok stamp l w1 j _ R Hl1) as (w2 & X & Y). exists w2. repeat split; auto.
  - rewrite (proj1 Y). auto.
  - intros k q Hk. rewrite (proj2 Y k (started j (0 <? p_file_v p) k q)) by (rewrite C, Hk; auto).
    unfold ev_log, ev_elog, ev_count, ev_term. rewrite D1, D2, Ef, En.
    assert (S1 : flat_map (said w1 j) l = flat_map (said w j) l) by (apply flat_map_ext; auto).
    rewrite S1, (flat_map_ext _ _ (D3 stamp (p_file_v p))), (flat_map_ext _ _ (D4 stamp k)). reflexivity.
Qed.

(** ** Without any assumption on the processes *)
Lemma log_to_file_becomes : forall stamp w j m v w', log_to_file stamp w j m v = Some w' ->
  exists a, becomes w w' a (fun _ => []) (fun _ => 0) (fun _ => []).
Proof.
  intros stamp w j m v w' H. unfold log_to_file in H. destruct (nth_error w j) as [p|] eqn:Ep; [|discriminate].
  destruct (format_msg stamp (p_file_v p) v m) as [s|]; [|discriminate]. destruct (p_log_w p); [|discriminate].
  inversion H; subst. exists (fun k => if Nat.eqb k j then s else []). split; [apply upd_length|]. intros k q Hk. rewrite upd_nth.
  destruct (Nat.eqb k j) eqn:E.
  - apply Nat.eqb_eq in E. subst k. rewrite Hk. cbn. rewrite Ep in Hk. inversion Hk; subst q.
    destruct p; unfold grown; cbn. rewrite !app_nil_r, Nat.add_0_r. reflexivity.
  - rewrite grown_nil. auto.
Qed.
Lemma log_to_term_becomes : forall stamp w i m v w', log_to_term stamp w i m v = Some w' ->
  exists t, becomes w w' (fun _ => []) (fun _ => []) (fun _ => 0) t /\ forall k, k <> i -> t k = [].
Proof.
  intros stamp w i m v w' H. unfold log_to_term in H. destruct (nth_error w i) as [p|] eqn:Ep; [|discriminate].
  destruct (format_msg stamp (p_term_v p) v m) as [s|]; [|discriminate]. inversion H; subst.
  exists (fun k => if Nat.eqb k i then [((v =? V_ERROR) || (v =? V_WARNING) || p_server p, s)] else []). split; [split; [apply upd_length|]|].
  - intros k q Hk. rewrite upd_nth. destruct (Nat.eqb k i) eqn:E.
    + apply Nat.eqb_eq in E. subst k. rewrite Hk. cbn. rewrite Ep in Hk. inversion Hk; subst q.
      destruct p; unfold grown; cbn. rewrite !app_nil_r, Nat.add_0_r. reflexivity.
    + rewrite grown_nil. auto.
  - intros k Hk. apply Nat.eqb_neq in Hk. rewrite Hk. auto.
Qed.
Lemma log_call_becomes : forall stamp w i m v w', log_call stamp w i m v = Some w' ->
  exists a t, becomes w w' a (fun _ => []) (fun _ => 0) t.
Proof.
  intros stamp w i m v w' H. unfold log_call in H. destruct (nth_error w i) as [p|] eqn:Ep; [|discriminate].
  destruct ((p_file_v p <? v) && (p_term_v p <? v)); [inversion H; subst; eexists; eexists; apply becomes_refl|].
  match type of H with match ?X with _ => _ end = _ => destruct X as [w1|] eqn:E1; [|discriminate] end.
  assert (B1 : exists a, becomes w w1 a (fun _ => []) (fun _ => 0) (fun _ => [])).
  { destruct ((v <=? p_file_v p) && p_log_open p); [|inversion E1; subst; eexists; apply becomes_refl].
    destruct (p_writer p); [eapply log_to_file_becomes; eauto|].
    destruct (p_bw p) as [j|]; [|inversion E1; subst; eexists; apply becomes_refl].
    destruct (call_ok w i j (bs "log.Log.log_to_file") [AStr m; AOther]); [|discriminate]. eapply log_to_file_becomes; eauto. }
  destruct B1 as (a & B1). destruct (v <=? p_term_v p).
  - destruct (log_to_term_becomes _ _ _ _ _ _ H) as (t & B2 & _). exists a, t.
    eapply becomes_ext; [apply (becomes_trans _ _ _ _ _ _ _ _ _ _ _ B1 B2)|]. intros k Hk. cbn. rewrite app_nil_r. auto.
  - inversion H; subst. eexists; eexists; eauto.
Qed.

Lemma validate_becomes : forall stamp w i x w' r, validate_verbosity stamp w i x = Some (w', r) ->
  (exists a t, becomes w w' a (fun _ => []) (fun _ => 0) t) /\
  match r with
  | Some n => verb_value x = Some (Z.of_nat n) /\ n <= 9 /\ w' = w
  | None => forall z, verb_value x = Some z -> ~ (0 <= z <= 9)%Z
  end.
Proof.
  intros stamp w i x w' r H. unfold validate_verbosity in H. destruct (verb_value x) as [z|] eqn:E.
  - destruct ((0 <=? z) && (z <=? 9))%Z eqn:Z1.
    + apply andb_true_iff in Z1. destruct Z1 as [A B]. apply Z.leb_le in A. apply Z.leb_le in B. inversion H; subst. split.
      * eexists; eexists; apply becomes_refl.
      * rewrite Z2Nat.id by auto. repeat split; auto. lia.
    + destruct (log_call stamp w i _ V_ERROR) as [w1|] eqn:L; [|discriminate]. inversion H; subst. split.
      * eapply log_call_becomes; eauto.
      * intros z' Hz'. inversion Hz'; subst. intro Hr. apply andb_false_iff in Z1. destruct Z1 as [Z1|Z1]; apply Z.leb_gt in Z1; lia.
  - destruct (log_call stamp w i _ V_ERROR) as [w1|] eqn:L; [|discriminate]. inversion H; subst. split.
    + eapply log_call_becomes; eauto.
    + intros z Hz. discriminate.
Qed.

(** ** Splitting the error log *)
Lemma spaced_no_nl : forall s, mem_byte nl (spaced s) = false.
Proof.
  induction s as [|c s IH]; auto. change (spaced (c :: s)) with ((if Ascii.eqb c nl then chr 32 else c) :: spaced s).
  cbn [mem_byte]. rewrite IH, Bool.orb_false_r. destruct (Ascii.eqb c nl) eqn:E; auto.
Qed.
Lemma split_on_app : forall c a b, mem_byte c a = false -> split_on c (a ++ c :: b) = a :: split_on c b.
Proof.
  intros c a. induction a as [|x a IH]; intros b H.
  - cbn. rewrite Ascii.eqb_refl. reflexivity.
  - cbn in H. apply orb_false_iff in H. destruct H as [H1 H2]. cbn [app split_on]. rewrite IH by auto.
    rewrite Ascii.eqb_sym in H1. rewrite H1. reflexivity.
Qed.
