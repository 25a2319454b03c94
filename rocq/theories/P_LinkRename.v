(** * C24: the checksum of a file with several names is not lost with its first name

    Only the first name of a file with several names has a checksum in the metadata.  If that name
    is gone from the source (renamed, say), the next name is still recognised as unchanged. *)
From Coq Require Import List ZArith Bool Ascii Lia.
From Verif Require Import Base L_Base M_Iter L_Iter M_Hardlinks S_Hardlinks L_Hardlinks P_Hardlinks.
Import List ListNotations.
Local Open Scope Z_scope.

Definition src_not (k : Z * Z) (p : lpair) : Prop := match fst p with Some x => f_key x <> k | None => True end.
Definition dest_not (k : Z * Z) (p : lpair) : Prop := match snd p with Some d => f_key d <> k | None => True end.

Lemma keq a b : key_eqb a b = true -> a = b. Proof. apply key_eqb_eq. Qed.
Lemma kne a b : a <> b -> key_eqb a b = false.
Proof. intros H. apply not_true_is_false. intro E. apply keq in E. contradiction. Qed.

Lemma add_other t o x dest k : f_key x <> k -> tget (fst (fst (add_rorp t o x dest))) k = tget t k.
Proof.
  intros N. unfold add_rorp. destruct (negb (multi x)); [reflexivity|]. destruct (tget t (f_key x)); [reflexivity|].
  destruct dest as [d|]; [destruct (f_nlinks d =? 1); [|destruct (tget o (f_key d)), (f_sha1 d)]|]; cbn [fst]; rewrite tget_tset, kne by auto; reflexivity.
Qed.
Lemma add_old t o x dest k : (match dest with Some d => f_key d <> k | None => True end) ->
  tget (snd (fst (add_rorp t o x dest))) k = tget o k.
Proof.
  intros N. unfold add_rorp. destruct (negb (multi x)); [reflexivity|]. destruct (tget t (f_key x)); [reflexivity|].
  destruct dest as [d|]; [|reflexivity]. destruct (f_nlinks d =? 1); [reflexivity|]. cbn [fst snd].
  destruct (tget o (f_key d)), (f_sha1 d); try reflexivity. cbn [fst snd]. rewrite tget_tdel, kne by auto. reflexivity.
Qed.
Lemma old_other o d k : f_key d <> k -> tget (add_old_rorp o d) k = tget o k.
Proof.
  intros N. unfold add_old_rorp. destruct (f_sha1 d); [|reflexivity]. destruct (multi d); [|reflexivity].
  destruct (tget o (f_key d)); [reflexivity|]. rewrite tget_tset, kne by auto. reflexivity.
Qed.
Lemma del_other t x k : f_key x <> k -> tget (del_rorp t x) k = tget t k.
Proof.
  intros N. unfold del_rorp. destruct (negb (multi x)); [reflexivity|]. destruct (tget t (f_key x)) as [e|]; [|reflexivity].
  destruct (l_remaining e =? 1); [rewrite tget_tdel|rewrite tget_tset]; rewrite kne by auto; reflexivity.
Qed.
Lemma post_other t p k : src_not k p -> tget (post t p) k = tget t k.
Proof. unfold src_not, post. destruct (fst p); auto. apply del_other. Qed.
Lemma eq_other t x d b t' k : rorp_eq t x d = Some (b, t') -> f_key x <> k -> tget t' k = tget t k.
Proof.
  unfold rorp_eq. intros E N.
  destruct (negb (f_reg x) || negb (f_reg d) || ((f_nlinks x =? 1) && (f_nlinks d =? 1))); [injection E as <- <-; reflexivity|].
  match type of E with (if ?c then _ else _) = _ => destruct c end; [injection E as <- <-; reflexivity|].
  destruct (negb (f_nlinks x =? f_nlinks d)); [injection E as <- <-; reflexivity|].
  destruct (tget t (f_key x)) as [e|]; [|discriminate]. destruct (l_dest e); injection E as <- <-; try reflexivity.
  rewrite tget_tset, kne by auto. reflexivity.
Qed.
Lemma decide_other same t src dest w t' k : decide same t src dest = Some (w, t') ->
  (match src with Some x => f_key x <> k | None => True end) -> tget t' k = tget t k.
Proof.
  intros E N. unfold decide in E. destruct src as [x|]; [|injection E as <- <-; reflexivity].
  assert (G : forall t1 w t2, (if is_linked t1 x then option_map (fun i => (LinkTo i, t1)) (get_link_index t1 x) else Some (Fresh, t1)) = Some (w, t2) -> t2 = t1).
  { intros t1 w1 t2 H. destruct (is_linked t1 x); [|now injection H as <- <-]. destruct (get_link_index t1 x); [|discriminate]. now injection H as <- <-. }
  destruct dest as [d|]; [|apply G in E; now subst].
  destruct (same x d); [|apply G in E; now subst].
  destruct (rorp_eq t x d) as [[[] t1]|] eqn:R; [| |discriminate].
  - injection E as <- <-. eapply eq_other; eauto.
  - apply G in E. subst. eapply eq_other; eauto.
Qed.
Lemma shorten_other c cache t k : Forall (src_not k) cache ->
  Forall (src_not k) (fst (shorten c cache t)) /\ tget (snd (shorten c cache t)) k = tget t k.
Proof.
  intros F. destruct cache as [|p r]; [split; auto|]. cbn [shorten]. destruct (Nat.ltb c (length (p :: r))); cbn [fst snd]; [|auto].
  inversion F; subst. split; auto. now apply post_other.
Qed.

(** the loop over files which are neither, key [kd], in the mirror nor, key [ks], in the source *)
Lemma loop_other same c ks kd : forall l cache t o rest ws t9,
  Forall (src_not ks) l -> Forall (dest_not kd) l -> Forall (src_not ks) cache ->
  (length cache <= c)%nat -> (1 <= c)%nat ->
  backup_loop same c cache t o (l ++ rest) = Some (ws, t9) ->
  exists ws1 ws2 cache' t' o', ws = ws1 ++ ws2 /\ length ws1 = length l /\ backup_loop same c cache' t' o' rest = Some (ws2, t9) /\
    Forall (src_not ks) cache' /\ (length cache' <= c)%nat /\ tget t' ks = tget t ks /\ tget o' kd = tget o kd.
Proof.
  induction l as [|[src dest] l IH]; intros cache t o rest ws t9 Fs Fd Fc Lc C1 E.
  - exists [], ws, cache, t, o. cbn in *. auto 10.
  - inversion Fs as [|? ? S1 S2]; subst. inversion Fd as [|? ? D1 D2]; subst. unfold src_not, dest_not in S1, D1. cbn [fst snd] in S1, D1.
    cbn [app backup_loop] in E.
    destruct (pre_process t o src dest) as [[t1 o1] dest1] eqn:P.
    assert (T1 : tget t1 ks = tget t ks /\ tget o1 kd = tget o kd).
    { unfold pre_process in P. destruct src as [x|].
      - pose proof (add_other t o x dest ks S1) as A. pose proof (add_old t o x dest kd D1) as B. rewrite P in A, B. auto.
      - destruct dest as [d|]; injection P as <- <- <-; auto. split; auto. now apply old_other. }
    assert (F1 : Forall (src_not ks) (cache ++ [(src, dest1)])) by (apply Forall_app; split; [assumption|constructor; [exact S1|constructor]]).
    destruct (shorten_other c _ t1 ks F1) as [F2 T2]. destruct (shorten c (cache ++ [(src, dest1)]) t1) as [cache2 t2] eqn:Sh.
    cbn [fst snd] in *.
    assert (L2 : (length cache2 <= c)%nat).
    { destruct cache as [|p r]; cbn [app shorten] in Sh.
      - destruct (Nat.ltb c (length [(src, dest1)])) eqn:Q; injection Sh as <- <-; cbn in *; lia.
      - destruct (Nat.ltb c (length (p :: r ++ [(src, dest1)]))) eqn:Q; injection Sh as <- <-.
        + cbn [length] in *. rewrite app_length in *. cbn in *. lia.
        + apply PeanoNat.Nat.ltb_ge in Q. exact Q. }
    destruct (decide same t2 src dest1) as [[w t3]|] eqn:Dc; [|discriminate].
    pose proof (decide_other _ _ _ _ _ _ ks Dc S1) as T3.
    destruct (backup_loop same c cache2 t3 o1 (l ++ rest)) as [[ws' t4]|] eqn:B; [|discriminate]. injection E as <- <-.
    destruct (IH _ _ _ _ _ _ S2 D2 F2 L2 C1 B) as (ws1 & ws2 & cache' & t' & o' & A1 & A2 & A3 & A4 & A5 & A6 & A7).
    exists (w :: ws1), ws2, cache', t', o'. subst ws'. cbn [app length]. destruct T1 as [Ta Tb].
    repeat split; auto; congruence.
Qed.

(** ** The theorem.  [d], in the mirror, is the first name of a file with several names, and not in the
    source any more; [d'] is the next of its names.  The source has at [d'] a file [x] which is the
    first of its names, equal to [d'] once the checksum of [d] is counted as the one of [d'], and
    with as many names as before: it is left as it is. *)
Theorem C24_first_name_gone : forall same cache_size a d b x d' rest h decisions t,
  (1 <= cache_size)%nat ->
  backup_loop same cache_size [] [] [] (a ++ (None, Some d) :: b ++ (Some x, Some d') :: rest) = Some (decisions, t) ->
  f_sha1 d = Some h -> f_sha1 d' = None -> partner d d' = true ->
  (forall y, In (Some y) (map snd (a ++ b)) -> f_key y <> f_key d) ->
  f_reg x = true -> f_nlinks x = f_nlinks d' ->
  (forall y, In (Some y) (map fst (a ++ b)) -> f_key y <> f_key x) ->
  same x (mk_lfile (f_index d') (f_reg d') (f_nlinks d') (f_key d') (Some h)) = true ->
  nth_error decisions (length a + 1 + length b) = Some Same.
Proof.
  intros same c a d b x d' rest h ws t9 C1 E Hh Hn P Hd Rx Nx Hs Sm.
  destruct (partner_multi d d' P) as (Md & Md' & K).
  assert (Fs : forall l, incl l (a ++ b) -> Forall (src_not (f_key x)) l).
  { intros l I. apply Forall_forall. intros p Hp. unfold src_not. destruct (fst p) as [y|] eqn:Ey; auto. apply Hs. rewrite <- Ey. apply in_map. auto. }
  assert (Fd : forall l, incl l (a ++ b) -> Forall (dest_not (f_key d)) l).
  { intros l I. apply Forall_forall. intros p Hp. unfold dest_not. destruct (snd p) as [y|] eqn:Ey; auto. apply Hd. rewrite <- Ey. apply in_map. auto. }
  assert (Ia : incl a (a ++ b)) by (intros y Hy; apply in_or_app; auto).
  assert (Ib : incl b (a ++ b)) by (intros y Hy; apply in_or_app; auto).
  destruct (loop_other same c (f_key x) (f_key d) a [] [] [] _ _ _ (Fs a Ia) (Fd a Ia) (Forall_nil _) (PeanoNat.Nat.le_0_l c) C1 E)
    as (w1 & w2 & c1 & t1 & o1 & -> & L1 & E1 & F1 & Lc1 & T1 & O1). clear E. cbn [tget] in T1, O1.
  cbn [backup_loop pre_process] in E1.
  assert (O2 : tget (add_old_rorp o1 d) (f_key d) = Some h).
  { unfold add_old_rorp. rewrite Hh, Md, O1, tget_tset, key_eqb_refl. reflexivity. }
  assert (Fc : Forall (src_not (f_key x)) (c1 ++ [(None, Some d)])) by (apply Forall_app; split; [assumption|constructor; [exact I|constructor]]).
  destruct (shorten_other c _ t1 _ Fc) as [F2 T2].
  assert (L2 : (length (fst (shorten c (c1 ++ [(None, Some d)]) t1)) <= c)%nat).
  { destruct (c1 ++ [(None, Some d)]) as [|p r] eqn:Q; [cbn; lia|]. cbn [shorten].
    assert (Q2 : length (p :: r) = S (length c1)) by (rewrite <- Q, app_length; cbn; lia).
    destruct (Nat.ltb c (length (p :: r))) eqn:Z0; cbn [fst]; [cbn [length] in Q2; lia|]. apply PeanoNat.Nat.ltb_ge in Z0. exact Z0. }
  destruct (shorten c (c1 ++ [(None, Some d)]) t1) as [c2 t2]. cbn [fst snd] in *. cbn [decide] in E1.
  destruct (backup_loop same c c2 t2 (add_old_rorp o1 d) (b ++ (Some x, Some d') :: rest)) as [[w3 t4]|] eqn:E2; [|discriminate].
  injection E1 as <- <-.
  destruct (loop_other same c (f_key x) (f_key d) b _ _ _ _ _ _ (Fs b Ib) (Fd b Ib) F2 L2 C1 E2)
    as (w4 & w5 & c5 & t5 & o5 & -> & L4 & E5 & F5 & Lc5 & T5 & O5). clear E2.
  rewrite T2, T1 in T5. rewrite O2 in O5.
  cbn [backup_loop pre_process] in E5.
  assert (Mx : multi x = true).
  { unfold multi in *. apply andb_true_iff in Md' as [_ Z0]. rewrite Rx, Nx, Z0. reflexivity. }
  assert (N1 : (f_nlinks d' =? 1) = false) by (unfold multi in Md'; apply andb_true_iff in Md' as [_ Z0]; lia).
  assert (AR : add_rorp t5 o5 x (Some d') =
     (tset t5 (f_key x) (mk_lentry (f_index x) (f_nlinks x) (DKey (f_key d')) (f_sha1 x)), tdel o5 (f_key d'), Some (set_sha1 d' h))).
  { unfold add_rorp. rewrite Mx, T5, N1. cbn [negb]. rewrite <- K, O5, Hn. reflexivity. }
  rewrite AR in E5. clear AR.
  set (t6 := tset t5 (f_key x) _) in E5.
  assert (T6 : exists t7 c7, shorten c (c5 ++ [(Some x, Some (set_sha1 d' h))]) t6 = (c7, t7) /\ tget t7 (f_key x) = tget t6 (f_key x)).
  { destruct c5 as [|p r]; cbn [app shorten].
    - destruct (Nat.ltb c (length [(Some x, Some (set_sha1 d' h))])) eqn:Q; [|eauto].
      apply PeanoNat.Nat.ltb_lt in Q. cbn in Q. lia.
    - destruct (Nat.ltb c (length (p :: r ++ [(Some x, Some (set_sha1 d' h))]))); [|eauto].
      inversion F5; subst. do 2 eexists. split; [reflexivity|]. now apply post_other. }
  destruct T6 as (t7 & c7 & Sh & T7). rewrite Sh in E5. unfold t6 in T7. rewrite tget_tset, key_eqb_refl in T7.
  cbn [decide] in E5.
  change (set_sha1 d' h) with (mk_lfile (f_index d') (f_reg d') (f_nlinks d') (f_key d') (Some h)) in E5. rewrite Sm in E5.
  assert (RE : rorp_eq t7 x (mk_lfile (f_index d') (f_reg d') (f_nlinks d') (f_key d') (Some h)) = Some (true, t7)).
  { unfold rorp_eq. cbn [f_reg f_nlinks f_sha1 f_key].
    rewrite Rx. replace (f_reg d') with true by (unfold multi in Md'; now apply andb_true_iff in Md' as [-> _]).
    rewrite Nx, N1, Z.eqb_refl. cbn [negb andb orb]. rewrite andb_false_r. rewrite T7. cbn [l_dest].
    rewrite key_eqb_refl. reflexivity. }
  rewrite RE in E5. destruct (backup_loop same c c7 t7 (tdel o5 (f_key d')) rest) as [[w8 t8]|]; [|discriminate].
  injection E5 as <- <-.
  rewrite nth_error_app2 by lia. replace (length a + 1 + length b - length w1)%nat with (S (length b)) by lia. cbn [nth_error].
  rewrite nth_error_app2 by lia. replace (length b - length w4)%nat with 0%nat by lia. reflexivity.
Qed.

(** "a" renamed to "z": "b", without checksum in the metadata, isn't written again; "z" is linked to it *)
Example link_rename_ex :
  let f n s := mk_lfile [n] true 2 (5, 1) s in
  let same x y := match f_sha1 y with Some _ => idx_eqb (f_index x) (f_index y) | None => false end in
  exists t, backup_loop same 3 [] [] [] [(None, Some (f (bs "a") (Some (bs "11")))); (Some (f (bs "b") None), Some (f (bs "b") None));
    (Some (f (bs "z") None), None)] = Some ([Gone; Same; LinkTo [bs "b"]], t).
Proof. eexists. reflexivity. Qed.

Print Assumptions C24_first_name_gone.
