(** * C29: the wrappers around librsync deliver one stream of bytes *)
From Coq Require Import List ZArith Bool Ascii Lia.
From Verif Require Import Base L_Base M_LikeFile.
Import List ListNotations.

Section C29.
Variable job : Type.
Variable cycle : job -> bytes -> option (bool * nat * bytes * job).
Variable blocksize : nat.
Notation like := (like job).
Notation add_once := (add_once job cycle blocksize).
Notation gather := (gather job cycle blocksize).
Notation like_read := (like_read job cycle blocksize).
Notation like_reads := (like_reads job cycle blocksize).

(** the state with the bytes waiting in outbuf taken out *)
Definition drop (l : like) : like := mk_like (k_in l) (k_inbuf l) [] (k_eof l) (k_infile_eof l) (k_job l).
Definition with_out (o : bytes) (l : like) : like :=
  mk_like (k_in l) (k_inbuf l) (o ++ k_outbuf l) (k_eof l) (k_infile_eof l) (k_job l).

(** the bytes produced from a state on until the end: [yields l s] *)
Inductive yields : like -> bytes -> Prop :=
| y_end l : k_eof l = true -> yields l (k_outbuf l)
| y_step l l' s : k_eof l = false -> add_once l = Some l' -> yields l' s -> yields l s.

Lemma yields_det l s : yields l s -> forall s', yields l s' -> s' = s.
Proof.
  induction 1 as [l E|l l' s E A Y IH]; intros s' H.
  - destruct H as [l2 E2|l2 l3 s2 E2 A2 Y2]; [reflexivity|congruence].
  - destruct H as [l2 E2|l2 l3 s2 E2 A2 Y2]; [congruence|].
    rewrite A in A2. injection A2 as <-. now apply IH.
Qed.

Lemma add_once_out l o l' : add_once l = Some l' -> add_once (with_out o l) = Some (with_out o l').
Proof.
  unfold M_LikeFile.add_once. assert (F : forall (x : like), filled job blocksize (with_out o x) = with_out o (filled job blocksize x)).
  { intros x. unfold filled, with_out. cbn [k_infile_eof k_in k_inbuf k_outbuf k_eof k_job].
    destruct (k_infile_eof x) eqn:Ex; [rewrite ?Ex; reflexivity|].
    destruct (fill blocksize (k_in x) (k_inbuf x)) as [[c b] e]. reflexivity. }
  rewrite F. set (y := filled job blocksize l). unfold with_out at 1 2. cbn [k_job k_inbuf].
  destruct (cycle (k_job y) (k_inbuf y)) as [[[[eof used] out] j]|]; [|discriminate].
  intros H. injection H as <-. unfold with_out. cbn [k_in k_inbuf k_outbuf k_eof k_infile_eof k_job]. now rewrite app_assoc.
Qed.

Lemma yields_out l s o : yields l s -> yields (with_out o l) (o ++ s).
Proof.
  induction 1 as [l E|l l' s E A Y IH].
  - change (o ++ k_outbuf l) with (k_outbuf (with_out o l)). apply y_end. exact E.
  - eapply y_step; [exact E|apply add_once_out; exact A|exact IH].
Qed.

(** bytes in outbuf are the first of those yielded *)
Lemma add_once_keeps l l' : add_once l = Some l' -> exists o, k_outbuf l' = k_outbuf l ++ o.
Proof.
  unfold M_LikeFile.add_once. intros H.
  destruct (cycle (k_job (filled job blocksize l)) (k_inbuf (filled job blocksize l))) as [[[[eof used] out] j]|]; [|discriminate].
  injection H as <-. exists out. cbn [k_outbuf]. f_equal. unfold filled.
  destruct (k_infile_eof l); [reflexivity|]. destruct (fill blocksize (k_in l) (k_inbuf l)) as [[c b] e]. reflexivity.
Qed.
Lemma yields_outbuf l s : yields l s -> exists t, s = k_outbuf l ++ t.
Proof.
  induction 1 as [l E|l l' s E A Y [t IH]].
  - exists []. now rewrite app_nil_r.
  - destruct (add_once_keeps _ _ A) as [o O]. exists (o ++ t). now rewrite IH, O, app_assoc.
Qed.

Lemma gather_ok len : forall f l l', gather f len l = Some (Some l') ->
  enough job len l' = true /\ forall s, yields l s <-> yields l' s.
Proof.
  induction f as [|f IH]; intros l l' H; cbn [M_LikeFile.gather] in H.
  - destruct (enough job len l) eqn:E; [|discriminate]. injection H as <-. split; [exact E|tauto].
  - destruct (enough job len l) eqn:E; [injection H as <-; split; [exact E|tauto]|].
    destruct (add_once l) as [l1|] eqn:A; [|discriminate]. apply IH in H as [H1 H2]. split; [exact H1|].
    intros s. rewrite <- H2. unfold enough in E. apply orb_false_iff in E as [E _]. split; intros Y.
    + destruct Y as [x E2|x x' s2 E2 A2 Y2]; [congruence|]. rewrite A in A2. now injection A2 as <-.
    + eapply y_step; eauto.
Qed.

(** One read: the bytes returned are the next ones of the stream, as many as asked for
    unless the stream ends, and the stream goes on with the byte after them. *)
Lemma read_ok f len l b l' s : like_read f len l = RData job b l' -> yields l s ->
  exists t, s = b ++ t /\ yields l' t /\
    match len with
    | None => t = []
    | Some n => length b = Nat.min n (length s)
    end.
Proof.
  unfold M_LikeFile.like_read. intros H Y. destruct (gather f len l) as [[l1|]|] eqn:G; [|discriminate|discriminate].
  destruct (gather_ok _ _ _ _ G) as [En Eq]. apply Eq in Y. unfold take in H.
  set (n := match len with None => _ | Some n => _ end) in H. injection H as <- <-.
  set (l2 := mk_like (k_in l1) (k_inbuf l1) (skipn n (k_outbuf l1)) (k_eof l1) (k_infile_eof l1) (k_job l1)).
  assert (W : l1 = with_out (firstn n (k_outbuf l1)) l2).
  { unfold with_out, l2. cbn [k_in k_inbuf k_outbuf k_eof k_infile_eof k_job]. rewrite firstn_skipn. now destruct l1. }
  assert (Y2 : exists t, yields l2 t /\ s = firstn n (k_outbuf l1) ++ t).
  { assert (Gen : forall x s0, yields x s0 -> forall o y, x = with_out o y -> exists t, yields y t /\ s0 = o ++ t).
    { clear. induction 1 as [x E|x x' s0 E A Y IH]; intros o y ->.
      - exists (k_outbuf y). split; [apply y_end; exact E|reflexivity].
      - destruct (add_once y) as [y'|] eqn:Ay.
        + rewrite (add_once_out _ o _ Ay) in A. injection A as <-.
          destruct (IH o y' eq_refl) as [t [Yt Et]]. exists t. split; [|exact Et].
          eapply y_step; [exact E|exact Ay|exact Yt].
        + exfalso. unfold M_LikeFile.add_once in A, Ay.
          assert (F : filled job blocksize (with_out o y) = with_out o (filled job blocksize y)).
          { unfold filled, with_out. cbn [k_infile_eof k_in k_inbuf k_outbuf k_eof k_job].
            destruct (k_infile_eof y) eqn:Ex; [rewrite ?Ex; reflexivity|].
            destruct (fill blocksize (k_in y) (k_inbuf y)) as [[c b] e]. reflexivity. }
          rewrite F in A. unfold with_out in A at 1 2. cbn [k_job k_inbuf] in A.
          destruct (cycle (k_job (filled job blocksize y)) (k_inbuf (filled job blocksize y))) as [[[[? ?] ?] ?]|]; discriminate. }
    exact (Gen _ _ Y _ _ W). }
  destruct Y2 as [t [Yt Es]]. exists t. split; [exact Es|]. split; [exact Yt|].
  destruct (yields_outbuf _ _ Y) as [u Eu].
  destruct len as [m|].
  - unfold n. rewrite firstn_length. rewrite Nat.min_l by apply Nat.le_min_r.
    unfold enough in En. apply orb_true_iff in En as [En|En].
    + assert (X : s = k_outbuf l1). { symmetry. eapply yields_det; [exact Y|]. now apply y_end. } now rewrite X.
    + apply Nat.leb_le in En. rewrite !Nat.min_l; [reflexivity| |exact En].
      rewrite Eu, app_length. lia.
  - unfold n in Es, Yt. unfold enough in En. rewrite orb_false_r in En.
    assert (X : s = k_outbuf l1). { symmetry. eapply yields_det; [exact Y|]. now apply y_end. }
    rewrite X, firstn_all in Es. rewrite <- (app_nil_r (k_outbuf l1)) in Es at 1. now apply app_inv_head in Es.
Qed.

(** Any sequence of reads of any sizes returns consecutive pieces of the stream; each
    one is of the size asked for until the end is reached. *)
Theorem C29_reads : forall fuel lens l pieces l' s,
  like_reads fuel lens l = Some (pieces, l') -> yields l s ->
  exists t, s = concat pieces ++ t /\ yields l' t.
Proof.
  intros fuel lens. induction lens as [|n r IH]; intros l pieces l' s H Y.
  - injection H as <- <-. exists s. auto.
  - cbn [M_LikeFile.like_reads] in H. destruct (like_read fuel n l) as [b l1| |] eqn:R; [|discriminate|discriminate].
    destruct (like_reads fuel r l1) as [[bs2 l2]|] eqn:Rs; [|discriminate]. injection H as <- <-.
    destruct (read_ok _ _ _ _ _ _ R Y) as [t [E [Y1 _]]].
    destruct (IH _ _ _ _ Rs Y1) as [u [E2 Y2]]. exists u. split; [|exact Y2].
    cbn [concat]. now rewrite E, E2, app_assoc.
Qed.

(** read(n) returns n bytes, or what is left when less is left *)
Theorem C29_read_size : forall fuel n l b l' s,
  like_read fuel (Some n) l = RData job b l' -> yields l s -> b = firstn n s /\ yields l' (skipn n s).
Proof.
  intros fuel n l b l' s R Y. destruct (read_ok _ _ _ _ _ _ R Y) as [t [E [Y1 L]]].
  assert (F : b = firstn n s /\ t = skipn n s).
  { destruct (Nat.le_gt_cases n (length s)) as [C|C].
    - rewrite Nat.min_l in L by exact C. subst s. rewrite <- L. rewrite firstn_app, skipn_app, Nat.sub_diag, firstn_all, skipn_all, app_nil_r. auto.
    - rewrite Nat.min_r in L by lia. assert (t = []) by (subst s; rewrite app_length in L; destruct t; [auto|cbn in L; lia]).
      subst t. rewrite app_nil_r in E. subst b. rewrite firstn_all2, skipn_all2 by lia. auto. }
  destruct F as [-> ->]. auto.
Qed.

(** read() returns all that is left *)
Theorem C29_read_rest : forall fuel l b l' s,
  like_read fuel None l = RData job b l' -> yields l s -> b = s /\ yields l' [].
Proof.
  intros fuel l b l' s R Y. destruct (read_ok _ _ _ _ _ _ R Y) as [t [E [Y1 L]]]. subst t. rewrite app_nil_r in E. auto.
Qed.

(** A stream which ends can be read, in any way, without getting stuck or failing. *)
Lemma gather_total s l : yields l s -> forall len, exists f, forall f', f <= f' -> exists l', gather f' len l = Some (Some l').
Proof.
  induction 1 as [l E|l l' s E A Y IH]; intros len.
  - exists 0. intros f' _. exists l. assert (X : enough job len l = true) by (unfold enough; now rewrite E).
    destruct f'; cbn [M_LikeFile.gather]; now rewrite X.
  - destruct (IH len) as [f Hf]. exists (S f). intros f' Hle. destruct f' as [|f']; [lia|].
    cbn [M_LikeFile.gather]. destruct (enough job len l); [eauto|]. rewrite A. apply Hf. lia.
Qed.
Theorem C29_read_total : forall len l s, yields l s ->
  exists f, forall f', f <= f' -> exists b l', like_read f' len l = RData job b l'.
Proof.
  intros len l s Y. destruct (gather_total _ _ Y len) as [f Hf]. exists f. intros f' Hle.
  destruct (Hf f' Hle) as [l1 G]. unfold M_LikeFile.like_read. rewrite G. unfold take. eauto.
Qed.

(** *** What librsync is given: the bytes of the input file, in order, none twice and
    none left out, and less than a block (in particular nothing, which means the end of
    the input) only when the file has come to its end. *)
Fixpoint before_eof (c : list bytes) : bytes :=
  match c with [] => [] | b :: r => match b with [] => [] | _ => b ++ before_eof r end end.

Lemma fill_ok c : forall b c' b' e, fill blocksize c b = (c', b', e) ->
  b ++ before_eof c = b' ++ (if e then [] else before_eof c') /\
  (e = false -> blocksize <= length b').
Proof.
  induction c as [|x r IH]; intros b c' b' e H; cbn [fill] in H;
    destruct (Nat.ltb_spec (length b) blocksize) as [L|L].
  - injection H as <- <- <-. split; [reflexivity|discriminate].
  - injection H as <- <- <-. split; [reflexivity|auto].
  - destruct x as [|a x].
    + injection H as <- <- <-. split; [reflexivity|discriminate].
    + apply IH in H as [H1 H2]. split; [|exact H2]. rewrite <- H1. cbn [before_eof]. now rewrite app_assoc.
  - injection H as <- <- <-. split; [reflexivity|auto].
Qed.

Definition rest_in (l : like) : bytes := if k_infile_eof l then [] else before_eof (k_in l).

Lemma filled_ok l : k_inbuf (filled job blocksize l) ++ rest_in (filled job blocksize l) = k_inbuf l ++ rest_in l /\
  (k_infile_eof (filled job blocksize l) = false -> blocksize <= length (k_inbuf (filled job blocksize l))).
Proof.
  unfold filled, rest_in. destruct (k_infile_eof l) eqn:E.
  - rewrite E. split; [reflexivity|congruence].
  - destruct (fill blocksize (k_in l) (k_inbuf l)) as [[c b] e] eqn:F. cbn [k_inbuf k_infile_eof k_in].
    apply fill_ok in F as [F1 F2]. split; [now symmetry|exact F2].
Qed.

(** the states of a wrapper opened on [c], with what cycle has used of the input so far *)
Inductive reach (c : list bytes) (j : job) : like -> bytes -> Prop :=
| reach_open : reach c j (like_open job c j) []
| reach_once l l' x eof used out j' : reach c j l x ->
    cycle (k_job (filled job blocksize l)) (k_inbuf (filled job blocksize l)) = Some (eof, used, out, j') ->
    add_once l = Some l' -> reach c j l' (x ++ firstn used (k_inbuf (filled job blocksize l)))
| reach_take l len x : reach c j l x -> reach c j (snd (take job len l)) x.

Lemma reach_input c j l x : reach c j l x -> x ++ k_inbuf l ++ rest_in l = before_eof c.
Proof.
  induction 1 as [|l l' x eof used out j' R IH C A|l len x R IH].
  - reflexivity.
  - unfold M_LikeFile.add_once in A. rewrite C in A. injection A as <-. unfold rest_in at 1. cbn [k_inbuf k_infile_eof k_in].
    fold (rest_in (filled job blocksize l)).
    rewrite <- app_assoc, (app_assoc (firstn used _)), firstn_skipn. destruct (filled_ok l) as [F _]. now rewrite F.
  - exact IH.
Qed.
(** Whenever cycle is called: what it used before, together with what it is given now, is
    a first part of the input; and it is given less than a block only if this is all. *)
Theorem C29_input : forall c j l x, reach c j l x ->
  exists t, x ++ k_inbuf (filled job blocksize l) ++ t = before_eof c /\
    (length (k_inbuf (filled job blocksize l)) < blocksize -> t = []).
Proof.
  intros c j l x R. apply reach_input in R. destruct (filled_ok l) as [F1 F2].
  exists (rest_in (filled job blocksize l)). split; [now rewrite F1|].
  intros L. unfold rest_in. destruct (k_infile_eof (filled job blocksize l)); [reflexivity|]. specialize (F2 eq_refl). lia.
Qed.
End C29.
Print Assumptions C29_reads.
Print Assumptions C29_read_size.
Print Assumptions C29_read_rest.
Print Assumptions C29_read_total.
Print Assumptions C29_input.

(** A wrapper around a maker which copies its input, two bytes at a time. *)
Definition copy_cycle (j : unit) (b : bytes) : option (bool * nat * bytes * unit) :=
  match b with [] => Some (true, 0, [], j) | _ => Some (false, 2, firstn 2 b, j) end.
Definition like0 := like_open unit [bs "abc"; bs "d"; bs "efg"] tt.
Example like_ex : yields unit copy_cycle 4 like0 (bs "abcdefg").
Proof. do 5 (eapply y_step; [reflexivity|reflexivity|]). match goal with |- yields _ _ _ ?l _ => exact (y_end unit copy_cycle 4 l eq_refl) end. Qed.
Example like_ex2 :
  match like_reads unit copy_cycle 4 20 [Some 1; Some 3; Some 0; None; Some 2] like0 with
  | Some (l, _) => l = [bs "a"; bs "bcd"; []; bs "efg"; []]
  | None => False
  end.
Proof. vm_compute. reflexivity. Qed.
