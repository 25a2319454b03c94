(** * Lemmas about M_Conn *)
From Coq Require Import List NArith Bool Lia Permutation.
From Verif Require Import Base L_Base M_Conn S_Conn.
Import List ListNotations.
Local Open Scope N_scope.

Lemma b2i_snoc s c : b2i (s ++ [c]) = b2i s * 256 + ord c.
Proof. unfold b2i. now rewrite fold_left_app. Qed.

Lemma be_length n : forall i, length (be n i) = n.
Proof. induction n as [|n IH]; intros i; cbn; [reflexivity|]. rewrite app_length, IH. cbn. lia. Qed.

Lemma b2i_be n : forall i, i < 256 ^ N.of_nat n -> b2i (be n i) = i.
Proof.
  induction n as [|n IH]; intros i H.
  - change (N.of_nat 0) with 0 in H. rewrite N.pow_0_r in H. cbn [be]. unfold b2i. cbn. lia.
  - cbn [be]. rewrite b2i_snoc, IH.
    + rewrite ord_chr by (apply N.mod_lt; lia). pose proof (N.div_mod i 256). lia.
    + rewrite Nat2N.inj_succ, N.pow_succ_r' in H. apply N.div_lt_upper_bound; lia.
Qed.

Lemma size_lt i : i < 2 ^ N.size i.
Proof. apply N.size_gt. Qed.

Lemma b2i_i2b i : b2i (i2b i) = i.
Proof.
  unfold i2b. apply b2i_be. rewrite N2Nat.id.
  change 256 with (2 ^ 8). rewrite <- N.pow_mul_r.
  eapply N.lt_le_trans; [apply size_lt|]. apply N.pow_le_mono_r; [lia|].
  pose proof (N.div_mod (N.size i + 7) 8). pose proof (N.mod_lt (N.size i + 7) 8). lia.
Qed.

Lemma write_some m b : write_msg m = Some b ->
  b = [m_type m] ++ be 1 (m_req m) ++ be 7 (N.of_nat (length (m_data m))) ++ m_data m /\
  m_req m < 256 /\ N.of_nat (length (m_data m)) < 256 ^ 7.
Proof.
  unfold write_msg, i2b_sized. change (N.of_nat 1) with 1. change (N.of_nat 7) with 7.
  destruct (N.ltb_spec (m_req m) (256 ^ 1)) as [H1|]; [|discriminate].
  destruct (N.ltb_spec (N.of_nat (length (m_data m))) (256 ^ 7)) as [H2|]; [|discriminate].
  intros [= <-]. change (256 ^ 1) with 256 in H1. auto.
Qed.

Lemma read_write m b rest : m_type m <> "q"%char -> write_msg m = Some b ->
  read_msg (b ++ rest) = GMsg m rest.
Proof.
  intros Hq H. apply write_some in H as (-> & H1 & H2). destruct m as [ty rq d]. cbn [m_type m_req m_data] in *.
  unfold read_msg.
  assert (E1 : exists c, be 1 rq = [c] /\ b2i [c] = rq).
  { pose proof (be_length 1 rq) as L. pose proof (b2i_be 1 rq H1) as B.
    destruct (be 1 rq) as [|c [|? ?]]; try discriminate. eauto. }
  destruct E1 as (c & -> & Ec).
  assert (L7 := be_length 7 (N.of_nat (length d))).
  assert (E7 : b2i (be 7 (N.of_nat (length d))) = N.of_nat (length d)) by (apply b2i_be; exact H2).
  set (l7 := be 7 (N.of_nat (length d))) in *.
  assert (Hl7 : forall X, firstn 9 (([ty] ++ [c] ++ l7 ++ d) ++ X) = ty :: c :: l7 /\ skipn 9 (([ty] ++ [c] ++ l7 ++ d) ++ X) = d ++ X).
  { intros X. cbn [app]. change (firstn 9 (ty :: c :: (l7 ++ d) ++ X)) with (ty :: c :: firstn 7 ((l7 ++ d) ++ X)).
    change (skipn 9 (ty :: c :: (l7 ++ d) ++ X)) with (skipn 7 ((l7 ++ d) ++ X)).
    rewrite <- app_assoc. rewrite firstn_app, L7, firstn_all2, Nat.sub_diag, firstn_O, app_nil_r by lia.
    rewrite skipn_app, L7, skipn_all2, Nat.sub_diag by lia. split; reflexivity. }
  destruct (Hl7 rest) as [-> ->]. cbn [length]. rewrite L7. cbn [Nat.eqb negb].
  destruct (Ascii.eqb_spec ty "q"); [contradiction|].
  rewrite E7, Nat2N.id, firstn_app, firstn_all, Nat.sub_diag, firstn_O, app_nil_r.
  rewrite skipn_app, skipn_all, Nat.sub_diag. rewrite Ec. reflexivity.
Qed.

Section Objects.
Context {Ob : Type}.
Variable pickle : Ob -> bytes.
Variable unpickle : bytes -> option Ob.
Hypothesis pickle_ok : forall o, unpickle (pickle o) = Some o.

Lemma msg_obj_ok x req : msg_obj unpickle (obj_msg pickle x req) = Some x.
Proof using pickle_ok. destruct x as [o|b|i|i|o|[] o|n]; unfold msg_obj; cbn -[b2i]; rewrite ?pickle_ok, ?b2i_i2b; reflexivity. Qed.

Lemma get_put x b rest : put pickle x = Some b -> get unpickle (b ++ rest) = GMsg x rest.
Proof using pickle_ok.
  intros H. unfold get. rewrite (read_write (obj_msg pickle (snd x) (fst x))); [|destruct x as [? []]; cbn; try discriminate; destruct k; discriminate|exact H].
  rewrite msg_obj_ok. destruct x as [n w]. destruct w; reflexivity.
Qed.

Lemma get_n_put l : forall b rest, put_all pickle l = Some b ->
  get_n unpickle (length l) (b ++ rest) = (l, get unpickle rest).
Proof using pickle_ok.
  induction l as [|x l IH]; intros b rest H; cbn in H.
  - injection H as <-. reflexivity.
  - destruct (put pickle x) as [a|] eqn:E; [|discriminate]. destruct (put_all pickle l) as [b'|] eqn:E'; [|discriminate].
    injection H as <-. cbn [length get_n]. rewrite <- app_assoc, (get_put x a _ E), (IH b' rest eq_refl). reflexivity.
Qed.

Lemma put_all_app l1 l2 b : put_all pickle (l1 ++ l2) = Some b ->
  exists b1 b2, put_all pickle l1 = Some b1 /\ put_all pickle l2 = Some b2 /\ b = b1 ++ b2.
Proof.
  revert b. induction l1 as [|x l1 IH]; intros b H; cbn in *; [eauto|].
  destruct (put pickle x) as [a|]; [|discriminate]. destruct (put_all pickle (l1 ++ l2)) as [c|] eqn:E; [|discriminate].
  injection H as <-. destruct (IH c eq_refl) as (b1 & b2 & -> & -> & ->). exists (a ++ b1), b2. now rewrite app_assoc.
Qed.

Lemma short_header inp : (length inp < 9)%nat -> get unpickle inp = GTrunc.
Proof.
  intros H. unfold get, read_msg. rewrite firstn_all2 by lia.
  destruct (Nat.eqb_spec (length inp) 9); [lia|reflexivity].
Qed.
End Objects.

(** ** Calls *)
Section Calls.
Context {V : Type}.
Notation prog := (@prog V).
Notation frame := (@frame V).
Notation side := (@side V).
Notation conf := (@conf V).

Lemma rm_in n m l : In m (rm n l) <-> In m l /\ m <> n.
Proof.
  unfold rm. rewrite filter_In. destruct (N.eqb_spec m n); cbn; intuition congruence.
Qed.
Lemma rm_nodup n l : NoDup l -> NoDup (rm n l).
Proof. apply NoDup_filter. Qed.
Lemma mem_in n l : mem n l = true <-> In n l.
Proof.
  unfold mem. rewrite existsb_exists. split.
  - intros (x & Hx & E). apply N.eqb_eq in E. now subst.
  - intros H. exists n. split; [assumption|apply N.eqb_refl].
Qed.
Lemma rm_length n l : NoDup l -> In n l -> S (length (rm n l)) = length l.
Proof.
  induction l as [|x l IH]; [intros _ []|]. intros Hn Hi. apply NoDup_cons_iff in Hn as [Hx Hn].
  unfold rm in *. cbn [filter]. destruct (N.eqb_spec x n) as [->|E]; cbn [negb length].
  - f_equal. f_equal.
    clear - Hx. induction l as [|y l IH]; cbn; [reflexivity|]. destruct (N.eqb_spec y n) as [->|]; cbn.
    + exfalso. apply Hx. now left.
    + f_equal. apply IH. intros H. apply Hx. now right.
  - destruct Hi as [Hi|Hi]; [congruence|]. rewrite IH by assumption. reflexivity.
Qed.

(** one of the sides seen from the other *)
Definition cf (b : bool) (x y : side) (xy yx : list pmsg) : conf :=
  if b then mk_conf x y xy yx else mk_conf y x yx xy.

Lemma cf_swap b x y xy yx : cf b x y xy yx = cf (negb b) y x yx xy.
Proof. destruct b; reflexivity. Qed.

Lemma step_x b x y xy yx x' yx' out : side_step x yx x' yx' out -> step (cf b x y xy yx) (cf b x' y (xy ++ out) yx').
Proof. intros H. destruct b; cbn; constructor; assumption. Qed.
Lemma step_y b x y xy yx y' xy' out : side_step y xy y' xy' out -> step (cf b x y xy yx) (cf b x y' xy' (yx ++ out)).
Proof. intros H. destruct b; cbn; constructor; assumption. Qed.
Lemma step_inv b x y xy yx c' : step (cf b x y xy yx) c' ->
  (exists x' yx' out, side_step x yx x' yx' out /\ c' = cf b x' y (xy ++ out) yx') \/
  (exists y' xy' out, side_step y xy y' xy' out /\ c' = cf b x y' xy' (yx ++ out)).
Proof. destruct b; cbn; inversion 1; subst; eauto 10. Qed.
Lemma listen_no_input (st : list frame) u x' yx' out : ~ side_step (mk_side Listen st u) [] x' yx' out.
Proof. inversion 1. Qed.

Lemma sound_cf b x y xy yx : alive x -> alive y -> NoDup (waits (s_stk x) ++ waits (s_stk y)) -> sound (cf b x y xy yx).
Proof.
  intros Hx Hy Hn. destruct b; cbn; repeat split; auto.
  cbn. eapply Permutation_NoDup; [|exact Hn]. apply Permutation_app_comm.
Qed.

Record wf (stA stB : list frame) (uA uB : list N) : Prop := {
  wf_a : NoDup uA; wf_b : NoDup uB; wf_ab : forall x, In x uA <-> In x uB;
  wf_w : NoDup (waits stA ++ waits stB);
  wf_d : forall x, In x uA -> ~ In x (waits stA ++ waits stB) }.

Lemma wf_sym stA stB uA uB : wf stA stB uA uB -> wf stB stA uB uA.
Proof.
  intros [H1 H2 H3 H4 H5]. constructor; auto.
  - intros x. symmetry. auto.
  - eapply Permutation_NoDup; [|exact H4]. apply Permutation_app_comm.
  - intros x Hx Hi. apply H3 in Hx. apply (H5 x Hx). rewrite in_app_iff in *. tauto.
Qed.

Lemma same_length (l l' : list N) : NoDup l -> NoDup l' -> (forall x, In x l <-> In x l') -> length l = length l'.
Proof.
  intros H H' E. apply Nat.le_antisymm; apply NoDup_incl_length; auto; intros x Hx; now apply E.
Qed.

(** one side waits for something to come: only the other side moves *)
Lemma one_step (P Q : conf -> Prop) b x y xy yx y' xy' out :
  P (cf b x y xy yx) ->
  (forall x' yx' o, ~ side_step x yx x' yx' o) ->
  side_step y xy y' xy' out ->
  (forall y2 xy2 o2, side_step y xy y2 xy2 o2 -> inevitable P Q (cf b x y2 xy2 (yx ++ o2))) ->
  inevitable P Q (cf b x y xy yx).
Proof.
  intros HP Hx Hy Hall. apply I_step; [assumption|eexists; apply step_y; eassumption|].
  intros c' Hc. apply step_inv in Hc as [(x' & yx' & o & Hs & _)|(y2 & xy2 & o2 & Hs & ->)].
  - exfalso. eapply Hx; eassumption.
  - auto.
Qed.

Lemma collect (P Q : conf -> Prop) b x n f st u : forall args acc,
  (forall a m o, sound (cf b x (mk_side (Args n f m a) st u) o []) -> P (cf b x (mk_side (Args n f m a) st u) o [])) ->
  alive x -> NoDup (waits (s_stk x) ++ waits st) -> (forall x' yx' o, ~ side_step x [] x' yx' o) ->
  inevitable P Q (cf b x (mk_side (Run (f (acc ++ args))) (FAnswer n :: st) u) [] []) ->
  inevitable P Q (cf b x (mk_side (Args n f (length args) acc) st u) (map (MVal n) args) []).
Proof.
  induction args as [|v args IH]; intros acc HP Ha Hn Hx HI; cbn [length map].
  - rewrite app_nil_r in HI. eapply one_step; [apply HP, sound_cf; auto; exact I|exact Hx|apply S_run|].
    intros y2 xy2 o2 Hs. inversion Hs; subst. exact HI.
  - eapply one_step; [apply HP, sound_cf; auto; exact I|exact Hx|apply S_arg|].
    intros y2 xy2 o2 Hs. inversion Hs; subst. rewrite N.eqb_refl. cbn [app].
    apply IH; auto. now rewrite <- app_assoc.
Qed.

Lemma run_ok (Q : conf -> Prop) : forall p b stA stB uA uB,
  wf stA stB uA uB -> nesting (length uA) p ->
  (forall uA' uB', (forall x, In x uA' <-> In x uA) -> wf stA stB uA' uB' ->
     inevitable sound Q (cf b (mk_side (Run (Ret (value p))) stA uA') (mk_side Listen stB uB') [] [])) ->
  inevitable sound Q (cf b (mk_side (Run p) stA uA) (mk_side Listen stB uB) [] []).
Proof.
  induction p as [v|f IHf args k IHk]; intros b stA stB uA uB HW HN HQ; cbn [value nesting] in *.
  - apply HQ; auto. reflexivity.
  - destruct (length uA) as [|m] eqn:EL; [contradiction|]. destruct HN as [HN1 HN2].
    destruct uA as [|n0 u0] eqn:EU; [discriminate|]. rewrite <- EU in *. clear EU.
    rewrite cf_swap.
    assert (exists n1, In n1 uA) as [n1 Hn1] by (destruct uA; [discriminate|eexists; now left]).
    eapply one_step; [apply sound_cf; try exact I; apply (wf_sym _ _ _ _ HW)|apply listen_no_input|exact (S_call f args k stA uA [] n1 Hn1)|].
    intros y2 xy2 o2 Hs. inversion Hs as [f' args' k' st' u' inp' n Hn| | | | | | |]; subst; [|discriminate]. clear Hs n1 Hn1.
    cbn [app]. rewrite cf_swap, negb_involutive.
    assert (Hw' : wf (FWait n k :: stA) stB (rm n uA) (rm n uB)).
    { destruct HW as [H1 H2 H3 H4 H5]. constructor; try (now apply rm_nodup).
      - intros x. rewrite !rm_in. now rewrite H3.
      - cbn. constructor; auto.
      - intros x. rewrite rm_in. intros [Hx Hne]. cbn. intros [E|E]; [congruence|]. now apply (H5 x Hx). }
    assert (HnB : In n uB) by now apply (wf_ab _ _ _ _ HW).
    assert (Hwb : ~ In n (waits stB)).
    { intros Hi. apply (wf_d _ _ _ _ HW n Hn). apply in_app_iff. auto. }
    assert (Htop : match stB with FWait n' _ :: _ => n' <> n | _ => True end).
    { destruct stB as [|[n' ?|?] ?]; auto. intros ->. apply Hwb. now left. }
    eapply one_step; [apply sound_cf; try exact I; apply Hw'|apply listen_no_input|apply S_request; exact Htop|].
    intros y2 xy2 o2 Hs. inversion Hs; subst; [exfalso; apply Htop; reflexivity|].
    clear Hs. rewrite (proj2 (mem_in n uB) HnB). cbn [app].
    apply collect; auto; try exact I; [apply Hw'|apply listen_no_input|]. cbn [app].
    rewrite cf_swap.
    apply (IHf args (negb b) (FAnswer n :: stB) (FWait n k :: stA) (rm n uB) (rm n uA)).
    + apply wf_sym in Hw'. destruct Hw' as [H1 H2 H3 H4 H5]. constructor; auto.
    + assert (E : length (rm n uB) = m).
      { rewrite (same_length (rm n uB) (rm n uA)).
        - pose proof (rm_length n uA (wf_a _ _ _ _ HW) Hn). lia.
        - apply rm_nodup, (wf_b _ _ _ _ HW).
        - apply rm_nodup, (wf_a _ _ _ _ HW).
        - intros x. rewrite !rm_in. now rewrite (wf_ab _ _ _ _ HW). }
      now rewrite E.
    + intros uB' uA' HuB HW2. set (w := value (f args)).
      rewrite cf_swap, negb_involutive.
      eapply one_step; [apply sound_cf; try exact I; apply Hw'|apply listen_no_input|apply S_answered|].
      intros y2 xy2 o2 Hs. inversion Hs; subst. clear Hs. cbn [app].
      rewrite cf_swap.
      eapply one_step; [apply sound_cf; try exact I; apply wf_sym in Hw'; apply Hw'|apply listen_no_input|apply (S_got n k stA uA' (MVal n w) []); reflexivity|].
      intros y2 xy2 o2 Hs. inversion Hs; subst; [|contradiction].
      clear Hs. cbn [app].
      rewrite cf_swap, negb_involutive.
      assert (HuA : forall x, In x (n :: uA') <-> In x uA).
      { intros x. cbn. rewrite <- (wf_ab _ _ _ _ HW2), HuB, rm_in, <- (wf_ab _ _ _ _ HW).
        destruct (N.eq_dec x n) as [->|Hne]; [tauto|]. split; [intros [E|[E _]]; [congruence|exact E]|auto]. }
      assert (HuB' : forall x, In x (n :: uB') <-> In x uB).
      { intros x. rewrite <- (wf_ab _ _ _ _ HW), <- HuA. cbn. now rewrite (wf_ab _ _ _ _ HW2). }
      assert (HW3 : wf stA stB (n :: uA') (n :: uB')).
      { constructor.
        - constructor; [|apply (wf_b _ _ _ _ HW2)]. intros Hi. apply (wf_ab _ _ _ _ HW2), HuB, rm_in in Hi. tauto.
        - constructor; [|apply (wf_a _ _ _ _ HW2)]. intros Hi. apply HuB, rm_in in Hi. tauto.
        - intros x. rewrite HuA, HuB'. apply (wf_ab _ _ _ _ HW).
        - apply (wf_w _ _ _ _ HW).
        - intros x Hx. apply HuA in Hx. now apply (wf_d _ _ _ _ HW). }
      apply IHk.
      * exact HW3.
      * assert (E : length (n :: uA') = S m) by (rewrite (same_length _ uA); auto; [apply (wf_a _ _ _ _ HW3)|apply (wf_a _ _ _ _ HW)]).
        rewrite E. exact HN2.
      * intros uA2 uB2 H2 HW4. apply HQ; [|exact HW4]. intros x. now rewrite H2.
Qed.
End Calls.
