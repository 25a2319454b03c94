(** * C76: a running session is recognised, and only if it can be *)
From Coq Require Import List NArith ZArith Bool Ascii Lia.
From Verif Require Import Base L_Base M_Pid S_Pid.
Import List ListNotations.

(** ** The content of the marker *)
Lemma is_ws_spec c : is_ws c = true <-> space_char c.
Proof.
  unfold is_ws, space_char. pose proof (ord_lt c).
  rewrite orb_true_iff, !andb_true_iff, !N.leb_le. cbn [In]. lia.
Qed.
Lemma ci_spec a b c : ci a b c = true <-> c = a \/ c = b.
Proof. unfold ci. rewrite orb_true_iff, !Ascii.eqb_eq. tauto. Qed.
Lemma ws_not_digit c : is_ws c = true -> is_digit c = false.
Proof.
  intros H. destruct (is_digit c) eqn:E; [|easy]. apply is_digit_ord in E.
  unfold is_ws in H. rewrite orb_true_iff, !andb_true_iff, !N.leb_le in H. lia.
Qed.

Lemma skip_ws_split s : exists ws, s = ws ++ skip_ws s /\ Forall space_char ws.
Proof.
  induction s as [|c r (ws & E & F)]; [exists []; split; [easy|constructor]|]. cbn [skip_ws].
  destruct (is_ws c) eqn:W; [|exists []; split; [easy|constructor]].
  exists (c :: ws). cbn [app]. rewrite <- E. split; [easy|].
  constructor; [now apply is_ws_spec|easy].
Qed.
Lemma skip_ws_app ws s : Forall space_char ws -> skip_ws (ws ++ s) = skip_ws s.
Proof.
  induction 1 as [|c r H _ IH]; [easy|]. cbn [app skip_ws].
  apply is_ws_spec in H. now rewrite H.
Qed.
Lemma take_digits_split s : exists post,
  s = take_digits s ++ post /\ Forall (fun d => is_digit d = true) (take_digits s) /\
  match post with d :: _ => is_digit d = false | [] => True end.
Proof.
  induction s as [|c r (post & E & F & P)]; [exists []; cbn; repeat split; constructor|]. cbn [take_digits].
  destruct (is_digit c) eqn:W.
  - exists post. cbn [app]. rewrite <- E.
    split; [easy|]. split; [|easy]. constructor; [exact W|exact F].
  - exists (c :: r). split; [easy|]. split; [constructor|exact W].
Qed.
Lemma take_digits_app ds post :
  Forall (fun d => is_digit d = true) ds ->
  match post with d :: _ => is_digit d = false | [] => True end ->
  take_digits (ds ++ post) = ds.
Proof.
  intros H P. induction H as [|c r H _ IH]; cbn [app].
  - destruct post as [|d r]; [easy|]. cbn [take_digits]. now rewrite P.
  - cbn [take_digits]. now rewrite H, IH.
Qed.

Definition here (s : bytes) (n : N) : Prop :=
  exists a b c ws ds post,
    s = [a; b; c] ++ ws ++ ds ++ post /\
    In a (bs "Pp") /\ In b (bs "Ii") /\ In c (bs "Dd") /\
    Forall space_char ws /\
    ds <> [] /\ Forall (fun d => is_digit d = true) ds /\ dval ds = n /\
    match post with d :: _ => is_digit d = false | [] => True end.

Lemma ci_in (x y c : ascii) : In c [x; y] <-> ci x y c = true.
Proof. rewrite ci_spec. cbn [In]. split; intros [H|H]; intuition congruence. Qed.

Lemma match_here_spec s n : match_here s = Some n <-> here s n.
Proof.
  split.
  - destruct s as [|a [|b [|c r]]]; try discriminate. cbn [match_here].
    destruct (ci "P" "p" a) eqn:A; [|discriminate].
    destruct (ci "I" "i" b) eqn:B; [|discriminate].
    destruct (ci "D" "d" c) eqn:C; [|discriminate]. cbn [andb].
    destruct (skip_ws_split r) as (ws & E & F).
    destruct (take_digits_split (skip_ws r)) as (post & E2 & F2 & P2).
    destruct (take_digits (skip_ws r)) as [|d ds] eqn:D; [discriminate|].
    intros [= <-].
    exists a, b, c, ws, (d :: ds), post.
    rewrite E2 in E. cbn [app] in *. 
    split; [now rewrite E at 1|].
    split; [now apply ci_in|]. split; [now apply ci_in|]. split; [now apply ci_in|].
    repeat split; try easy.
  - intros (a & b & c & ws & ds & post & -> & A & B & C & F & ND & F2 & V & P).
    apply ci_in in A, B, C. cbn [app match_here]. rewrite A, B, C. cbn [andb].
    rewrite skip_ws_app by easy.
    assert (K : skip_ws (ds ++ post) = ds ++ post).
    { destruct ds as [|d ds]; [easy|]. cbn [app skip_ws].
      inversion F2; subst. destruct (is_ws d) eqn:W; [|easy].
      apply ws_not_digit in W. congruence. }
    rewrite K, take_digits_app by easy. destruct ds; [easy|]. now rewrite V.
Qed.

(** [bol]: the string itself begins a line *)
Definition at_pos (bol : bool) (s : bytes) (k : nat) (n : N) : Prop :=
  exists pre r, s = pre ++ r /\ length pre = k /\ here r n /\
    (pre = [] /\ bol = true \/ exists pre', pre = pre' ++ [nl]).

Lemma at_pos_true s k n : at_pos true s k n <-> pid_at s k n.
Proof.
  split.
  - intros (pre & r & -> & L & (a & b & c & ws & ds & post & -> & H) & Q).
    exists pre, a, b, c, ws, ds, post. repeat split; try easy.
    destruct Q as [[Q _]|Q]; [now left|now right].
  - intros (pre & a & b & c & ws & ds & post & -> & L & Q & H).
    exists pre, ([a; b; c] ++ ws ++ ds ++ post). repeat split; try easy.
    + exists a, b, c, ws, ds, post. now repeat split.
    + destruct Q; [now left|now right].
Qed.
Lemma at_pos_0 bol s n : at_pos bol s 0 n <-> bol = true /\ here s n.
Proof.
  split.
  - intros (pre & r & -> & L & H & Q). destruct pre; [|easy]. cbn [app].
    destruct Q as [[_ Q]|[p Q]]; [easy|]. now destruct p.
  - intros [-> H]. exists [], s. repeat split; try easy. now left.
Qed.
Lemma at_pos_S bol c s k n : at_pos bol (c :: s) (S k) n <-> at_pos (Ascii.eqb c nl) s k n.
Proof.
  split.
  - intros (pre & r & E & L & H & Q). destruct pre as [|x pre]; [easy|].
    cbn [app] in E. injection E as -> ->. cbn [length] in L. injection L as L.
    exists pre, r. repeat split; try easy.
    destruct Q as [[Q _]|[p Q]]; [easy|]. destruct p as [|y p]; cbn [app] in Q.
    + injection Q as -> ->. left. split; [easy|apply Ascii.eqb_refl].
    + injection Q as -> ->. right. now exists p.
  - intros (pre & r & -> & L & H & Q). exists (c :: pre), r.
    repeat split; try easy; [cbn [length]; now rewrite L|]. right.
    destruct Q as [[-> Q]|[p ->]].
    + apply Ascii.eqb_eq in Q. subst c. now exists [].
    + now exists (c :: p).
Qed.
Lemma at_pos_nil bol k n : ~ at_pos bol [] k n.
Proof.
  intros (pre & r & E & _ & (a & b & c & ws & ds & post & -> & _) & _).
  destruct pre; discriminate.
Qed.

Lemma search_some bol s n : search_pid bol s = Some n <->
  exists k, at_pos bol s k n /\ forall j m, j < k -> ~ at_pos bol s j m.
Proof.
  revert bol. induction s as [|c s IH]; intros bol.
  - cbn [search_pid]. split.
    + destruct bol; cbn [match_here]; discriminate.
    + intros (k & H & _). now apply at_pos_nil in H.
  - cbn [search_pid]. 
    destruct (if bol then match_here (c :: s) else None) as [m|] eqn:E.
    + destruct bol; [|discriminate]. apply match_here_spec in E. split.
      * intros [= <-]. exists 0. split; [now apply at_pos_0|]. intros; lia.
      * intros ([|k] & H & L).
        -- apply at_pos_0 in H. destruct H as [_ H].
           apply match_here_spec in E, H. congruence.
        -- exfalso. apply (L 0 m); [lia|]. now apply at_pos_0.
    + assert (N0 : forall m, ~ at_pos bol (c :: s) 0 m).
      { intros m H. apply at_pos_0 in H. destruct H as [-> H].
        apply match_here_spec in H. congruence. }
      rewrite IH. split.
      * intros (k & H & L). exists (S k). split; [now apply at_pos_S|].
        intros [|j] m J; [easy|]. rewrite at_pos_S. apply L. lia.
      * intros ([|k] & H & L); [now apply N0 in H|].
        exists k. apply at_pos_S in H. split; [easy|].
        intros j m J G. apply (L (S j) m); [lia|]. now apply at_pos_S.
Qed.

Lemma search_none bol s : search_pid bol s = None <-> forall k n, ~ at_pos bol s k n.
Proof.
  revert bol. induction s as [|c s IH]; intros bol.
  - cbn [search_pid]. split.
    + intros _ k n. apply at_pos_nil.
    + intros _. now destruct bol.
  - cbn [search_pid].
    destruct (if bol then match_here (c :: s) else None) as [m|] eqn:E.
    + destruct bol; [|discriminate]. apply match_here_spec in E. split; [discriminate|].
      intros H. exfalso. apply (H 0 m). now apply at_pos_0.
    + rewrite IH. split.
      * intros H [|k] n G; [|apply at_pos_S in G; now apply H in G].
        apply at_pos_0 in G. destruct G as [-> G]. apply match_here_spec in G. congruence.
      * intros H k n G. apply (H (S k) n). now apply at_pos_S.
Qed.

(** The PID read from a file is the one at the first place of it where a line begins
    with a PID; none is read if there is no such line. *)
Theorem C76_pid_is_the_first_one s n :
  extract_pid s = Some n <-> exists k, pid_at s k n /\ forall j m, j < k -> ~ pid_at s j m.
Proof.
  unfold extract_pid. rewrite search_some. split; intros (k & H & L); exists k.
  - split; [now apply at_pos_true|]. intros j m J. rewrite <- at_pos_true. auto.
  - split; [now apply at_pos_true|]. intros j m J. rewrite at_pos_true. auto.
Qed.
Theorem C76_no_pid s : extract_pid s = None <-> forall k n, ~ pid_at s k n.
Proof.
  unfold extract_pid. rewrite search_none.
  split; intros H k n; specialize (H k n); now rewrite ?at_pos_true, <- ?at_pos_true in *.
Qed.

(** What a session writes is what a later one reads, for every PID; the marker of a
    session which doesn't know its PID says nothing. *)
Theorem C76_marker_read_back pid : extract_pid (marker pid) = pid.
Proof.
  destruct pid as [n|]; [|reflexivity].
  apply C76_pid_is_the_first_one. exists 0. split; [|intros; lia].
  exists [], "P"%char, "I"%char, "D"%char, (bs " "), (dec n), [nl].
  split; [easy|]. split; [easy|]. split; [now left|].
  split; [now left|]. split; [now left|]. split; [now left|].
  split; [constructor; [vm_compute; tauto|constructor]|].
  split; [apply dec_nonempty|].
  split; [|split; [apply dval_dec|reflexivity]].
  apply Forall_forall. intros d H. pose proof (dec_digits n) as G.
  now apply (proj1 (forallb_forall _ _) G).
Qed.

(** ** The check *)

(** The check passes exactly if no marker has a PID of a process known to run: such a
    PID is a C int, not 0, and there isn't such a process or it can't be signalled. *)
Theorem C76_check_exact pt me contents :
  check_pids pt me contents = CkPass <->
  forall s pid, In s contents -> extract_pid s = Some pid ->
    (0 < pid <= 2147483647)%N /\ ~ visible pt me pid.
Proof.
  induction contents as [|s r IH]; cbn [check_pids]; [split; [easy|reflexivity]|].
  assert (K : forall pid, pid_running pt me pid = Some (Some false) \/
                          pid_running pt me pid = Some None <->
              (0 < pid <= 2147483647)%N /\ ~ visible pt me pid).
  { intros pid. unfold pid_running, kill0, visible, pid_max.
    destruct (2147483647 <? pid)%N eqn:A;
      [apply N.ltb_lt in A|apply N.ltb_ge in A];
      [split; [intros [H|H]; discriminate|intros [H _]; lia]|].
    destruct (pid =? 0)%N eqn:B;
      [apply N.eqb_eq in B|apply N.eqb_neq in B];
      [split; [intros [H|H]; discriminate|intros [H _]; lia]|].
    destruct (owner_of pt pid) as [u|].
    - destruct ((me =? 0) || (me =? u))%N eqn:C.
      + split; [intros [H|H]; discriminate|].
        intros [_ H]. exfalso. apply H. exists u. split; [easy|].
        rewrite orb_true_iff, !N.eqb_eq in C. exact C.
      + split; [|now right]. intros _. split; [lia|].
        intros (v & [= <-] & H). rewrite orb_false_iff, !N.eqb_neq in C. tauto.
    - split; [|now left]. intros _. split; [lia|]. now intros (v & H & _). }
  destruct (extract_pid s) as [pid|] eqn:E.
  - specialize (K pid). destruct (pid_running pt me pid) as [[[|]|]|] eqn:R.
    + split; [discriminate|]. intros H. exfalso.
      specialize (H s pid (or_introl eq_refl) E). apply K in H. now destruct H.
    + rewrite IH. split; intros H; [|intros; now apply (H s0); [right|]].
      intros s0 p0 [<-|I] E0; [|now apply (H s0)].
      rewrite E in E0. injection E0 as <-. apply K. now left.
    + rewrite IH. split; intros H; [|intros; now apply (H s0); [right|]].
      intros s0 p0 [<-|I] E0; [|now apply (H s0)].
      rewrite E in E0. injection E0 as <-. apply K. now right.
    + split; [discriminate|]. intros H. exfalso.
      specialize (H s pid (or_introl eq_refl) E). apply K in H. now destruct H.
  - rewrite IH. split; intros H; [|intros; now apply (H s0); [right|]].
    intros s0 p0 [<-|I] E0; [congruence|now apply (H s0)].
Qed.

(** A process named as running does run (or is the group of the calling process). *)
Theorem C76_report_is_true pt me contents pid :
  check_pids pt me contents = CkFatal pid ->
  (exists s, In s contents /\ extract_pid s = Some pid) /\ (pid = 0%N \/ visible pt me pid).
Proof.
  induction contents as [|s r IH]; cbn [check_pids]; [discriminate|].
  destruct (extract_pid s) as [q|] eqn:E.
  - destruct (pid_running pt me q) as [[[|]|]|] eqn:R; [|intros H..|]; try discriminate.
    + intros [= <-]. split; [exists s; split; [now left|easy]|].
      unfold pid_running, kill0, visible in *.
      destruct (pid_max <? q)%N; [discriminate|].
      destruct (q =? 0)%N eqn:B; [apply N.eqb_eq in B; now left|].
      destruct (owner_of pt q) as [u|]; [|discriminate].
      destruct ((me =? 0) || (me =? u))%N eqn:C; [|discriminate].
      right. exists u. split; [easy|]. now rewrite orb_true_iff, !N.eqb_eq in C.
    + destruct (IH H) as [(s' & I & X) V]. split; [exists s'; split; [now right|easy]|easy].
    + destruct (IH H) as [(s' & I & X) V]. split; [exists s'; split; [now right|easy]|easy].
  - intros H. destruct (IH H) as [(s' & I & X) V].
    split; [exists s'; split; [now right|easy]|easy].
Qed.

(** While the process which has written one of two markers runs, no session is started
    without --force by its user or by root. *)
Theorem C76_running_session_stops_others pt me m1 m2 pid :
  visible pt me pid ->
  snd m1 = marker (Some pid) \/ snd m2 = marker (Some pid) ->
  decide pt me false [m1; m2] = DcStop.
Proof.
  intros V H. unfold decide.
  destruct (check_pids pt me (map snd [m1; m2])) eqn:E; [|easy..].
  exfalso. rewrite C76_check_exact in E.
  destruct (E (marker (Some pid)) pid) as [_ N]; [|apply C76_marker_read_back|easy].
  cbn [map In]. tauto.
Qed.

(** If both sessions have ended and their PIDs aren't used by anyone visible, the next
    one isn't stopped. *)
Theorem C76_dead_session_stops_nobody pt me m1 m2 p1 p2 :
  snd m1 = marker (Some p1) -> snd m2 = marker (Some p2) ->
  (0 < p1 <= 2147483647)%N -> (0 < p2 <= 2147483647)%N ->
  ~ visible pt me p1 -> ~ visible pt me p2 ->
  decide pt me false [m1; m2] = DcRegress.
Proof.
  intros E1 E2 B1 B2 V1 V2. unfold decide.
  replace (check_pids pt me (map snd [m1; m2])) with CkPass; [easy|]. symmetry.
  apply C76_check_exact. cbn [map In]. rewrite E1, E2.
  intros s pid [<-|[<-|[]]]; rewrite C76_marker_read_back; intros [= <-]; easy.
Qed.

(** ** Several processes *)
Lemma owner_drop p q pt : q <> p -> owner_of (drop_proc p pt) q = owner_of pt q.
Proof.
  intros N. induction pt as [|[a u] r IH]; [easy|]. cbn [drop_proc filter fst].
  destruct (a =? p)%N eqn:E; cbn [negb owner_of].
  - apply N.eqb_eq in E. subst a. replace (p =? q)%N with false; [exact IH|].
    symmetry. apply N.eqb_neq. congruence.
  - destruct (a =? q)%N; [easy|exact IH].
Qed.

(** the state of the repository which fits the phase of the only session *)
Definition fits (p : N) (f : phase) (m : marks) : Prop :=
  match f with
  | PhStart => exists a, m = [a]
  | PhReady t => exists a, m = [a] /\ (fst a < t)%Z
  | PhRegress => exists a b, m = [a; b] /\ fst a <> fst b
  | PhMarked t => exists a, m = [(t, marker (Some p)); a] /\ (fst a < t)%Z
  end.
Definition inv (u : N) (w : world) : Prop :=
  match w_sess w with
  | [] => (exists a, w_marks w = [a]) \/ (exists a b, w_marks w = [a; b] /\ fst a <> fst b)
  | [(p, f)] => owner_of (w_procs w) p = Some u /\ fits p f (w_marks w)
  | _ => False
  end.

Lemma fits_marks p f m : fits p f m ->
  (exists a, m = [a]) \/ (exists a b, m = [a; b] /\ fst a <> fst b).
Proof.
  destruct f; cbn [fits].
  - intros H. now left.
  - intros H. now right.
  - intros (a & -> & _). left. now exists a.
  - intros (a & -> & H). right. exists (t, marker (Some p)), a. split; [easy|].
    cbn [fst]. lia.
Qed.

Lemma drop_self p (f : phase) : drop_sess p [(p, f)] = [].
Proof. cbn. now rewrite N.eqb_refl. Qed.

Lemma older_two a b : fst a <> fst b -> exists c, older [a; b] = [c] /\ (c = a \/ c = b).
Proof. intros _. cbn [older]. destruct (fst a <? fst b)%Z; eauto. Qed.

Lemma inv_step lk u w e : inv u w -> orderly lk u w [e] -> inv u (step lk w e).
Proof.
  unfold inv at 1. destruct w as [m pt lo ss]. cbn [w_sess w_marks w_procs].
  destruct ss as [|[p f] [|? ?]]; [| |easy].
  - (* no session *)
    intros H O.
    destruct e as [q v force|q|q t|q|q|q|q v|q]; cbn [step w_procs w_marks w_sess phase_of];
      try (unfold inv; cbn [w_sess w_marks]; exact H).
    + destruct (owner_of pt q) eqn:Q; [unfold inv; cbn [w_sess w_marks]; exact H|].
      cbn [w_lock]. destruct (take_lock lk q force lo) as [lk'|]; [|unfold inv; cbn [w_sess w_marks]; exact H].
      cbn [orderly] in O. destruct O as [(-> & -> & _) _].
      destruct (decide ((q, u) :: pt) u false m) eqn:D.
      * unfold inv, set_phase. cbn [w_sess w_marks w_procs drop_sess filter owner_of].
        rewrite N.eqb_refl. split; [easy|]. cbn [fits].
        destruct H as [H|(a & b & -> & _)]; [easy|].
        exfalso. revert D. unfold decide. now destruct (check_pids _ _ _).
      * unfold inv, set_phase. cbn [w_sess w_marks w_procs drop_sess filter owner_of].
        rewrite N.eqb_refl. split; [easy|]. cbn [fits].
        destruct H as [(a & ->)|H]; [discriminate|easy].
      * unfold inv. cbn [w_sess w_marks]. exact H.
    + destruct (owner_of pt q); unfold inv; cbn [w_sess w_marks]; exact H.
  - intros [OW F] O.
    assert (INV : inv u (mk_w m pt lo [(p, f)])) by (unfold inv; cbn; auto).
    assert (LV : forall m', (exists a, m' = [a]) \/ (exists a b, m' = [a; b] /\ fst a <> fst b) ->
              inv u (leave p (mk_w m' pt lo [(p, f)]))).
    { intros m' H. unfold inv, leave. cbn [w_sess w_marks w_procs]. now rewrite drop_self. }
    pose proof (fits_marks p f m F) as FM.
    destruct e as [q v force|q|q t|q|q|q|q v|q]; cbn [step w_procs w_marks w_sess phase_of].
    + destruct (owner_of pt q) eqn:Q; [exact INV|].
      cbn [w_lock]. destruct (take_lock lk q force lo) as [lk'|]; [|exact INV].
      cbn [orderly w_sess] in O. destruct O as [(-> & -> & M) _].
      inversion M as [|? ? [t E] _]; subst. cbn [snd] in E. subst f.
      cbn [fits] in F. destruct F as (a & -> & _).
      rewrite (C76_running_session_stops_others _ _ (t, marker (Some p)) a p); [exact INV| |].
      * exists u. split; [|now right]. cbn [owner_of].
        destruct (q =? p)%N eqn:E; [apply N.eqb_eq in E; congruence|exact OW].
      * now left.
    + destruct (p =? q)%N eqn:E; [|exact INV]. apply N.eqb_eq in E. subst q.
      destruct f; try exact INV. cbn [fits] in F. destruct F as (a & b & -> & N).
      destruct (older_two a b N) as (c & -> & _).
      unfold inv, set_phase, set_marks. cbn [w_sess w_marks w_procs]. rewrite drop_self.
      split; [easy|]. now exists c.
    + destruct (p =? q)%N eqn:E; [|exact INV]. apply N.eqb_eq in E. subst q.
      destruct f; try exact INV. cbn [fits] in F. destruct F as (a & ->).
      destruct (fst a <? t)%Z eqn:L; [|now apply LV].
      unfold inv, set_phase. cbn [w_sess w_marks w_procs]. rewrite drop_self.
      split; [easy|]. exists a. split; [easy|]. lia.
    + destruct (p =? q)%N eqn:E; [|exact INV]. apply N.eqb_eq in E. subst q.
      destruct f as [| |t|]; try exact INV. cbn [fits] in F. destruct F as (a & -> & L).
      cbn [existsb]. destruct (fst a =? t)%Z eqn:X; [lia|]. cbn [orb].
      unfold inv, set_phase, set_marks. cbn [w_sess w_marks w_procs]. rewrite drop_self.
      split; [easy|]. exists a. split; [easy|]. lia.
    + destruct (p =? q)%N eqn:E; [|exact INV]. apply N.eqb_eq in E. subst q.
      destruct f as [| | |t]; try exact INV. cbn [fits] in F. destruct F as (a & -> & L).
      cbn [newer fst]. replace (t <? fst a)%Z with false by lia.
      apply LV. left. now exists (t, marker (Some p)).
    + destruct (p =? q)%N eqn:E; [|exact INV]. apply N.eqb_eq in E. subst q. now apply LV.
    + destruct (owner_of pt q) eqn:Q; [exact INV|].
      unfold inv. cbn [w_sess w_marks w_procs owner_of]. split; [|easy].
      destruct (q =? p)%N eqn:E; [apply N.eqb_eq in E; congruence|exact OW].
    + destruct (p =? q)%N eqn:E; [exact INV|]. apply N.eqb_neq in E.
      unfold inv. cbn [w_sess w_marks w_procs]. split; [|easy].
      now rewrite owner_drop.
Qed.

Lemma orderly_head lk u w e l :
  orderly lk u w (e :: l) -> orderly lk u w [e] /\ orderly lk u (step lk w e) l.
Proof. cbn [orderly]. tauto. Qed.

Lemma inv_run lk u l w : inv u w -> orderly lk u w l -> inv u (run lk l w).
Proof.
  revert w. induction l as [|e l IH]; intros w I O; [easy|].
  apply orderly_head in O. destruct O as [O1 O2]. cbn [run fold_left].
  apply IH; [now apply inv_step|easy].
Qed.

(** Whatever the sessions do and whenever they die, and whatever other processes come and
    go: in a repository with one marker, or two of different times, there is never more
    than one session past the check, if none starts between the check of another one and
    the writing of its marker; whether locks work or not.  It is enough to look at the
    end, every prefix of an orderly schedule being orderly. *)
Theorem C76_never_two_sessions lk u pt lo m l :
  (exists a, m = [a]) \/ (exists a b, m = [a; b] /\ fst a <> fst b) ->
  orderly lk u (mk_w m pt lo []) l ->
  length (w_sess (run lk l (mk_w m pt lo []))) <= 1 /\
  1 <= length (w_marks (run lk l (mk_w m pt lo []))) <= 2.
Proof.
  intros H O. assert (I : inv u (mk_w m pt lo [])) by exact H.
  pose proof (inv_run lk u l _ I O) as G. revert G. unfold inv.
  destruct (w_sess (run lk l _)) as [|[p f] [|? ?]]; [| |easy].
  - intros [(a & ->)|(a & b & -> & _)]; cbn [length]; lia.
  - intros [_ F]. destruct (fits_marks _ _ _ F) as [(a & ->)|(a & b & -> & _)]; cbn [length]; lia.
Qed.
Theorem C76_prefix_is_orderly lk u w l k : orderly lk u w l -> orderly lk u w (firstn k l).
Proof.
  revert w k. induction l as [|e l IH]; intros w [|k] O; try exact I.
  apply orderly_head in O. destruct O as [[O _] O2]. cbn [firstn orderly].
  split; [exact O|now apply IH].
Qed.

(** Where locks work and nobody uses --force, it is so for every schedule, every user and
    every state of the markers. *)
Lemma drop_sess_in p q f l : In (q, f) (drop_sess p l) <-> In (q, f) l /\ q <> p.
Proof.
  unfold drop_sess. rewrite filter_In. cbn [fst]. rewrite negb_true_iff, N.eqb_neq. tauto.
Qed.
Lemma phase_in p l f : phase_of p l = Some f -> In (p, f) l.
Proof.
  induction l as [|[q g] r IH]; [discriminate|]. cbn [phase_of].
  destruct (q =? p)%N eqn:E; [apply N.eqb_eq in E; subst q; intros [= ->]; now left|].
  intros H. right. now apply IH.
Qed.
Definition locked (w : world) : Prop :=
  NoDup (map fst (w_sess w)) /\ forall q f, In (q, f) (w_sess w) -> w_lock w = Some q.
Lemma nodup_drop p l : NoDup (map fst l) -> NoDup (map fst (drop_sess p l)).
Proof.
  induction l as [|[q f] r IH]; [easy|]. cbn [map fst]. intros H. inversion H; subst.
  cbn [drop_sess filter fst]. destruct (q =? p)%N; cbn [negb]; [now apply IH|].
  cbn [map fst]. constructor; [|now apply IH].
  rewrite in_map_iff. intros ([q' f'] & E & X). cbn [fst] in E. subst q'.
  apply drop_sess_in in X. apply H2. rewrite in_map_iff. exists (q, f'). now split.
Qed.
Lemma locked_leave p w : locked w -> locked (leave p w).
Proof.
  intros [N L]. split.
  - cbn [leave w_sess]. now apply nodup_drop.
  - cbn [leave w_sess w_lock]. intros q f H. apply drop_sess_in in H. destruct H as [H D].
    rewrite (L q f H). apply N.eqb_neq in D. now rewrite D.
Qed.
Lemma locked_phase p f w :
  NoDup (map fst (w_sess w)) -> (forall q g, In (q, g) (w_sess w) -> q = p \/ w_lock w = Some q) ->
  w_lock w = Some p -> locked (set_phase p f w).
Proof.
  intros N L P. split; cbn [set_phase w_sess w_lock].
  - cbn [map fst]. constructor; [|now apply nodup_drop].
    rewrite in_map_iff. intros ([q g] & E & X). cbn [fst] in E. subst q.
    apply drop_sess_in in X. easy.
  - intros q g [[= <- <-]|H]; [easy|]. apply drop_sess_in in H. destruct H as [H D].
    destruct (L q g H) as [->|E]; [easy|exact E].
Qed.
Lemma locked_step w e : locked w -> unforced e -> locked (step true w e).
Proof.
  intros W U.
  assert (PH : forall p g f m, phase_of p (w_sess w) = Some g -> locked (set_phase p f (set_marks m w))).
  { intros p g f m H. apply phase_in in H. destruct W as [N L]. apply locked_phase.
    - exact N.
    - intros q h I. right. cbn [set_marks w_lock]. now apply (L q h).
    - exact (L p g H). }
  destruct e as [q v force|q|q t|q|q|q|q v|q]; cbn [step].
  - destruct (owner_of (w_procs w) q); [exact W|]. cbn [unforced] in U. subst force.
    cbn [take_lock]. destruct (w_lock w) as [o|] eqn:LK; [exact W|].
    assert (E : w_sess w = []).
    { destruct W as [_ L]. destruct (w_sess w) as [|[q' f'] r]; [easy|].
      assert (X := L q' f' (or_introl eq_refl)). congruence. }
    rewrite E. destruct (decide _ _ _ _); [| |exact W];
      (apply locked_phase; cbn [w_sess w_lock map]; [constructor|easy|easy]).
  - destruct (phase_of q (w_sess w)) as [g|] eqn:P; [|exact W].
    destruct g; try exact W. destruct (w_marks w) as [|a [|b [|? ?]]];
      try (now apply locked_leave). now apply (PH q PhRegress).
  - destruct (phase_of q (w_sess w)) as [g|] eqn:P; [|exact W].
    destruct g; try exact W.
    assert (X := PH q PhStart (PhReady t) (w_marks w) P).
    assert (Y : set_marks (w_marks w) w = w) by (now destruct w). rewrite Y in X.
    destruct (w_marks w) as [|a [|b r]]; try (now apply locked_leave).
    destruct (fst a <? t)%Z; [exact X|now apply locked_leave].
  - destruct (phase_of q (w_sess w)) as [g|] eqn:P; [|exact W].
    destruct g as [| |t|]; try exact W.
    destruct (existsb _ _); [now apply locked_leave|]. now apply (PH q (PhReady t)).
  - destruct (phase_of q (w_sess w)) as [g|] eqn:P; [|exact W].
    destruct g; try exact W. destruct (w_marks w) as [|a [|b [|? ?]]];
      try (now apply locked_leave).
  - destruct (phase_of q (w_sess w)) as [g|] eqn:P; [|exact W]. now apply locked_leave.
  - destruct (owner_of (w_procs w) q); exact W.
  - destruct (phase_of q (w_sess w)); exact W.
Qed.
Theorem C76_locks_suffice m pt l :
  Forall unforced l -> length (w_sess (run true l (mk_w m pt None []))) <= 1.
Proof.
  intros U.
  assert (G : forall w, locked w -> Forall unforced l -> locked (run true l w)).
  { clear U. induction l as [|e l IH]; intros w W U; [exact W|].
    inversion U; subst. cbn [run fold_left]. apply IH; [now apply locked_step|easy]. }
  destruct (G (mk_w m pt None [])) as [N L]; [split; [constructor|easy]|exact U|].
  destruct (w_sess (run true l _)) as [|[p f] [|[q g] r]]; cbn [length]; [lia|lia|].
  exfalso. assert (A := L p f (or_introl eq_refl)).
  assert (B := L q g (or_intror (or_introl eq_refl))). rewrite A in B. injection B as ->.
  cbn [map fst] in N. inversion N as [|? ? X]. apply X. now left.
Qed.

(** After a session was killed the next one regresses and marks its own time, if it is
    later than the last complete session's and the PIDs of the two markers aren't used
    again. *)
Theorem C76_next_session_takes_over lk pt p u a b pa pb t :
  (fst a < fst b)%Z -> (fst a < t)%Z ->
  snd a = marker (Some pa) -> snd b = marker (Some pb) ->
  (0 < pa <= 2147483647)%N -> (0 < pb <= 2147483647)%N ->
  ~ visible pt u pa -> ~ visible pt u pb -> owner_of pt p = None -> p <> pa -> p <> pb ->
  let w := run lk [EvCheck p u false; EvRegress p; EvTime p t; EvTouch p] (mk_w [a; b] pt None []) in
  w_marks w = [(t, marker (Some p)); a] /\ w_sess w = [(p, PhMarked t)].
Proof.
  intros L T Ea Eb Ba Bb Va Vb O Na Nb.
  assert (D : decide ((p, u) :: pt) u false [a; b] = DcRegress).
  { apply C76_dead_session_stops_nobody with pa pb; try easy.
    - intros (v & H & V). apply Va. exists v. split; [|easy]. cbn [owner_of] in H.
      destruct (p =? pa)%N eqn:E; [apply N.eqb_eq in E; congruence|easy].
    - intros (v & H & V). apply Vb. exists v. split; [|easy]. cbn [owner_of] in H.
      destruct (p =? pb)%N eqn:E; [apply N.eqb_eq in E; congruence|easy]. }
  cbn [run fold_left].
  set (lo := if lk then Some p else None).
  assert (S1 : step lk (mk_w [a; b] pt None []) (EvCheck p u false) =
               mk_w [a; b] ((p, u) :: pt) lo [(p, PhRegress)]).
  { cbn [step w_procs w_marks w_sess w_lock]. rewrite O.
    destruct lk; cbn [take_lock]; now rewrite D. }
  rewrite S1. clearbody lo.
  assert (S2 : step lk (mk_w [a; b] ((p, u) :: pt) lo [(p, PhRegress)]) (EvRegress p) =
               mk_w [a] ((p, u) :: pt) lo [(p, PhStart)]).
  { cbn [step w_procs w_marks w_sess phase_of older]. rewrite N.eqb_refl.
    replace (fst a <? fst b)%Z with true by lia.
    unfold set_phase, set_marks. cbn [w_procs w_marks w_sess w_lock]. now rewrite drop_self. }
  rewrite S2.
  assert (S3 : step lk (mk_w [a] ((p, u) :: pt) lo [(p, PhStart)]) (EvTime p t) =
               mk_w [a] ((p, u) :: pt) lo [(p, PhReady t)]).
  { cbn [step w_procs w_marks w_sess phase_of]. rewrite N.eqb_refl.
    replace (fst a <? t)%Z with true by lia.
    unfold set_phase. cbn [w_procs w_marks w_sess w_lock]. now rewrite drop_self. }
  rewrite S3. cbn [step w_procs w_marks w_sess phase_of existsb]. rewrite N.eqb_refl.
  replace (fst a =? t)%Z with false by lia. cbn [orb].
  unfold set_phase, set_marks. cbn [w_procs w_marks w_sess w_lock]. now rewrite drop_self.
Qed.

(** ** What isn't recognised, and what is in error *)

(** 1. Where locks don't work, or with --force: between the check and the writing of the
    marker another session may start; both go on, whatever their users and the rest of
    the machine. *)
Theorem C76_race_refuted (lk : bool) pt a p q u v t t' :
  owner_of pt p = None -> owner_of pt q = None -> p <> q ->
  (fst a < t)%Z -> (fst a < t')%Z -> t <> t' ->
  let w := run lk [EvCheck p u false; EvCheck q v lk; EvTime p t; EvTime q t';
                   EvTouch p; EvTouch q] (mk_w [a] pt None []) in
  w_sess w = [(q, PhMarked t'); (p, PhMarked t)] /\ length (w_marks w) = 3.
Proof.
  intros P Q N T T' NT.
  assert (E1 : (p =? q)%N = false) by now apply N.eqb_neq.
  assert (E2 : (q =? p)%N = false) by (apply N.eqb_neq; congruence).
  assert (L1 : (fst a <? t)%Z = true) by lia.
  assert (L2 : (fst a <? t')%Z = true) by lia.
  assert (L3 : (fst a =? t)%Z = false) by lia.
  assert (L4 : (fst a =? t')%Z = false) by lia.
  assert (L5 : (t =? t')%Z = false) by lia.
  cbn [run fold_left]. set (lo := if lk then Some p else None).
  assert (S1 : step lk (mk_w [a] pt None []) (EvCheck p u false) =
               mk_w [a] ((p, u) :: pt) lo [(p, PhStart)]).
  { cbn [step w_procs w_marks w_sess w_lock decide]. rewrite P. now destruct lk. }
  rewrite S1.
  assert (S2 : step lk (mk_w [a] ((p, u) :: pt) lo [(p, PhStart)]) (EvCheck q v lk) =
               mk_w [a] ((q, v) :: (p, u) :: pt) lo [(q, PhStart); (p, PhStart)]).
  { cbn [step w_procs w_marks w_sess w_lock decide owner_of]. rewrite E1, Q.
    subst lo. destruct lk; cbn [take_lock];
    unfold set_phase; cbn [w_procs w_marks w_sess w_lock drop_sess filter fst]; now rewrite E1. }
  rewrite S2. set (pt2 := (q, v) :: (p, u) :: pt). clearbody pt2. clearbody lo.
  assert (S3 : step lk (mk_w [a] pt2 lo [(q, PhStart); (p, PhStart)]) (EvTime p t) =
               mk_w [a] pt2 lo [(p, PhReady t); (q, PhStart)]).
  { cbn [step w_procs w_marks w_sess phase_of]. rewrite E2, N.eqb_refl, L1.
    unfold set_phase. cbn [w_procs w_marks w_sess w_lock drop_sess filter fst].
    now rewrite E2, N.eqb_refl. }
  rewrite S3.
  assert (S4 : step lk (mk_w [a] pt2 lo [(p, PhReady t); (q, PhStart)]) (EvTime q t') =
               mk_w [a] pt2 lo [(q, PhReady t'); (p, PhReady t)]).
  { cbn [step w_procs w_marks w_sess phase_of]. rewrite E1, N.eqb_refl, L2.
    unfold set_phase. cbn [w_procs w_marks w_sess w_lock drop_sess filter fst].
    now rewrite E1, N.eqb_refl. }
  rewrite S4.
  assert (S5 : step lk (mk_w [a] pt2 lo [(q, PhReady t'); (p, PhReady t)]) (EvTouch p) =
               mk_w [(t, marker (Some p)); a] pt2 lo [(p, PhMarked t); (q, PhReady t')]).
  { cbn [step w_procs w_marks w_sess phase_of existsb]. rewrite E2, N.eqb_refl, L3.
    cbn [orb]. unfold set_phase, set_marks.
    cbn [w_procs w_marks w_sess w_lock drop_sess filter fst].
    now rewrite E2, N.eqb_refl. }
  rewrite S5. cbn [step w_procs w_marks w_sess phase_of existsb fst].
  rewrite E1, N.eqb_refl, L4, L5. cbn [orb].
  unfold set_phase, set_marks. cbn [w_procs w_marks w_sess w_lock drop_sess filter fst].
  rewrite E1, N.eqb_refl. split; reflexivity.
Qed.

(** Neither of the two ends properly then, and nobody can start again, --force or not. *)
Theorem C76_race_blocks_repository_refuted lk w p q t t' :
  phase_of p (w_sess w) = Some (PhMarked t) -> phase_of q (w_sess w) = Some (PhMarked t') ->
  length (w_marks w) = 3 ->
  let w' := run lk [EvFinish p; EvFinish q] w in
  w_marks w' = w_marks w /\
  forall pt me force, decide pt me force (w_marks w') = DcStop.
Proof.
  intros P Q L. destruct (w_marks w) as [|a [|b [|c [|? ?]]]] eqn:M; try discriminate.
  cbn zeta. cbn [run fold_left].
  assert (S1 : w_marks (step lk w (EvFinish p)) = [a; b; c]).
  { cbn [step]. now rewrite P, M. }
  set (w1 := step lk w (EvFinish p)) in *. clearbody w1.
  assert (S2 : w_marks (step lk w1 (EvFinish q)) = [a; b; c]).
  { cbn [step]. rewrite S1. destruct (phase_of q (w_sess w1)) as [[]|]; exact S1. }
  rewrite S2. split; reflexivity.
Qed.

(** 2. By its PID a session of another user isn't recognised by anyone but root: sending a signal
    isn't permitted (which tells that the process runs). *)
Theorem C76_other_user_refuted pt me m1 m2 p1 p2 v1 :
  snd m1 = marker (Some p1) -> snd m2 = marker (Some p2) ->
  (0 < p1 <= 2147483647)%N -> (0 < p2 <= 2147483647)%N ->
  owner_of pt p1 = Some v1 -> v1 <> me -> me <> 0%N -> ~ visible pt me p2 ->
  decide pt me false [m1; m2] = DcRegress.
Proof.
  intros E1 E2 B1 B2 O1 N1 NR V2. apply C76_dead_session_stops_nobody with p1 p2; try easy.
  intros (v & H & V). rewrite O1 in H. injection H as <-. destruct V; congruence.
Qed.

(** 3. A session which regresses isn't recognised by a PID: the markers are the ones of the
    sessions before.  Without locks a second one regresses at the same time. *)
Theorem C76_regressing_session_refuted pt p q u a b pa pb :
  fst a <> fst b ->
  snd a = marker (Some pa) -> snd b = marker (Some pb) ->
  (0 < pa <= 2147483647)%N -> (0 < pb <= 2147483647)%N ->
  owner_of ((p, u) :: (q, u) :: pt) pa = None ->
  owner_of ((p, u) :: (q, u) :: pt) pb = None ->
  owner_of pt p = None -> owner_of pt q = None -> p <> q ->
  let w := run false [EvCheck p u false; EvCheck q u false] (mk_w [a; b] pt None []) in
  w_sess w = [(q, PhRegress); (p, PhRegress)].
Proof.
  intros NF Ea Eb Ba Bb Va Vb P Q N.
  assert (E1 : (p =? q)%N = false) by now apply N.eqb_neq.
  assert (E2 : (q =? p)%N = false) by (apply N.eqb_neq; congruence).
  assert (W : forall x, owner_of ((p, u) :: (q, u) :: pt) x = None ->
                owner_of ((p, u) :: pt) x = None /\ owner_of ((q, u) :: (p, u) :: pt) x = None).
  { intros x. cbn [owner_of]. destruct (p =? x)%N; [easy|]. destruct (q =? x)%N; [easy|]. easy. }
  destruct (W pa Va) as [Wa1 Wa2]. destruct (W pb Vb) as [Wb1 Wb2].
  assert (D1 : decide ((p, u) :: pt) u false [a; b] = DcRegress).
  { apply C76_dead_session_stops_nobody with pa pb; try easy.
    - intros (v & H & _). congruence.
    - intros (v & H & _). congruence. }
  assert (D2 : decide ((q, u) :: (p, u) :: pt) u false [a; b] = DcRegress).
  { apply C76_dead_session_stops_nobody with pa pb; try easy.
    - intros (v & H & _). congruence.
    - intros (v & H & _). congruence. }
  cbn [run fold_left].
  assert (S1 : step false (mk_w [a; b] pt None []) (EvCheck p u false) =
               mk_w [a; b] ((p, u) :: pt) None [(p, PhRegress)]).
  { cbn [step w_procs w_marks w_sess take_lock]. now rewrite P, D1. }
  rewrite S1. cbn [step w_procs w_marks w_sess owner_of take_lock]. rewrite E1, Q.
  rewrite D2. unfold set_phase. cbn [w_procs w_marks w_sess drop_sess filter fst].
  now rewrite E1.
Qed.

(** 4. A session whose PID isn't known isn't recognised. *)
Theorem C76_unknown_pid_refuted pt me t t' p :
  (0 < p <= 2147483647)%N -> ~ visible pt me p ->
  decide pt me false [(t, marker None); (t', marker (Some p))] = DcRegress.
Proof.
  intros B V. unfold decide.
  replace (check_pids _ _ _) with CkPass; [easy|]. symmetry. apply C76_check_exact.
  cbn [map In snd]. intros s pid [<-|[<-|[]]]; rewrite C76_marker_read_back; [discriminate|].
  intros [= <-]. easy.
Qed.

(** 5. A process doesn't except itself: after a crash no session is possible without
    --force as a process with the same PID as one of the last two sessions.  In a
    container the PID is the same every time. *)
Theorem C76_same_pid_again_refuted lk w p u a b :
  w_marks w = [a; b] -> snd a = marker (Some p) \/ snd b = marker (Some p) ->
  step lk w (EvCheck p u false) = w.
Proof.
  intros E H. cbn [step]. destruct (owner_of (w_procs w) p); [easy|].
  destruct (take_lock _ _ _ _); [|easy]. rewrite E.
  rewrite (C76_running_session_stops_others _ _ a b p); [easy| |easy].
  exists u. split; [|now right]. cbn [owner_of]. now rewrite N.eqb_refl.
Qed.
(** It is possible with --force. *)
Theorem C76_force_not_stopped pt me m1 m2 : decide pt me true [m1; m2] = DcRegress.
Proof. reflexivity. Qed.
(** ... which doesn't respect a session which does run, either. *)

(** 6. A number which isn't a PID at all ends the session with an exception. *)
Theorem C76_damaged_marker_refuted pt me n r :
  (2147483647 < n)%N -> check_pids pt me (marker (Some n) :: r) = CkCrash.
Proof.
  intros H. cbn [check_pids]. rewrite C76_marker_read_back.
  unfold pid_running, kill0, pid_max. now replace (2147483647 <? n)%N with true by lia.
Qed.

(** ** Examples *)
Example ex_marker : marker (Some 4711%N) = bs "PID 4711" ++ [nl].
Proof. reflexivity. Qed.
Example ex_extract : extract_pid (bs "no" ++ [nl] ++ bs "pid  12x34" ++ [nl] ++ bs "PID 9") = Some 12%N.
Proof. reflexivity. Qed.
Example ex_not_bol : extract_pid (bs "my PID 12") = None.
Proof. reflexivity. Qed.
(** two sessions one after the other, a third one in between is refused, one is killed,
    the next takes over *)
Definition ex_events : list ev :=
  [EvCheck 10 5 false; EvTime 10 2; EvTouch 10; EvCheck 11 5 false; EvSpawn 77 0;
   EvFinish 10; EvCheck 12 5 false; EvTime 12 3; EvTouch 12; EvDie 12;
   EvCheck 13 5 false; EvRegress 13; EvTime 13 4; EvTouch 13; EvExit 77; EvFinish 13].
Example ex_orderly : orderly false 5 (mk_w [(1%Z, marker (Some 9%N))] [] None []) ex_events.
Proof.
  cbv -[marked]. repeat split; repeat constructor; unfold marked; cbn; eauto.
Qed.
Example ex_result :
  w_marks (run false ex_events (mk_w [(1%Z, marker (Some 9%N))] [] None [])) = [(4%Z, marker (Some 13%N))] /\
  w_sess (run true (firstn 4 ex_events) (mk_w [(1%Z, marker (Some 9%N))] [] None [])) = [(10%N, PhMarked 2)].
Proof. now vm_compute. Qed.
Example ex_invisible : ~ visible [(10%N, 5%N)] 6 10.
Proof. intros (v & H & [E|E]); [discriminate|]. cbn in H. congruence. Qed.

Print Assumptions C76_pid_is_the_first_one.
Print Assumptions C76_no_pid.
Print Assumptions C76_marker_read_back.
Print Assumptions C76_check_exact.
Print Assumptions C76_report_is_true.
Print Assumptions C76_running_session_stops_others.
Print Assumptions C76_dead_session_stops_nobody.
Print Assumptions C76_never_two_sessions.
Print Assumptions C76_locks_suffice.
Print Assumptions C76_prefix_is_orderly.
Print Assumptions C76_next_session_takes_over.
Print Assumptions C76_race_refuted.
Print Assumptions C76_race_blocks_repository_refuted.
Print Assumptions C76_other_user_refuted.
Print Assumptions C76_regressing_session_refuted.
Print Assumptions C76_unknown_pid_refuted.
Print Assumptions C76_same_pid_again_refuted.
Print Assumptions C76_force_not_stopped.
Print Assumptions C76_damaged_marker_refuted.
