(* L_Base.v -- lemmas about Base.v *)
From Verif Require Import Base.
Local Open Scope N_scope.
From Coq Require Import ZifyBool ZifyNat ZifyN.

Lemma beq_bytes_true x y : beq_bytes x y = true <-> x = y.
Proof. unfold beq_bytes; destruct (list_eq_dec ascii_dec x y); split; congruence. Qed.
Lemma beq_bytes_refl x : beq_bytes x x = true.
Proof. now apply beq_bytes_true. Qed.
Lemma beq_bytes_false x y : beq_bytes x y = false <-> x <> y.
Proof. unfold beq_bytes; destruct (list_eq_dec ascii_dec x y); split; congruence. Qed.

Lemma mem_byte_In c s : mem_byte c s = true <-> In c s.
Proof.
  induction s as [|x r IH]; simpl; [split; [discriminate|tauto]|].
  rewrite orb_true_iff, IH, Ascii.eqb_eq. intuition congruence.
Qed.

Lemma mem_byte_app c s t : mem_byte c (s ++ t) = mem_byte c s || mem_byte c t.
Proof. induction s as [|x r IH]; simpl; [easy|]. now rewrite IH, orb_assoc. Qed.

Lemma ord_chr n : n < 256 -> ord (chr n) = n.
Proof. apply N_ascii_embedding. Qed.
Lemma chr_ord c : chr (ord c) = c.
Proof. apply ascii_N_embedding. Qed.
Lemma ord_lt c : ord c < 256.
Proof. apply N_ascii_bounded. Qed.
Lemma ord_inj c d : ord c = ord d -> c = d.
Proof. intros H. rewrite <- (chr_ord c), <- (chr_ord d). now rewrite H. Qed.

Lemma is_digit_digit_chr d : d < 10 -> is_digit (digit_chr d) = true.
Proof. intros H. unfold is_digit, digit_chr. rewrite ord_chr by lia. lia. Qed.
Lemma digit_val_chr d : d < 10 -> digit_val (digit_chr d) = d.
Proof. intros H. unfold digit_val, digit_chr. rewrite ord_chr by lia. lia. Qed.
Lemma is_digit_ord c : is_digit c = true <-> 48 <= ord c <= 57.
Proof. unfold is_digit. lia. Qed.

Definition dstep (acc : N) (c : ascii) : N := acc * 10 + digit_val c.
Lemma dval_app s t : dval (s ++ t) = fold_left dstep t (dval s).
Proof. unfold dval. now rewrite fold_left_app. Qed.
Lemma fold_dstep s acc : fold_left dstep s acc = acc * 10 ^ N.of_nat (List.length s) + dval s.
Proof.
  unfold dval. fold dstep.
  assert (G : forall s a, fold_left dstep s a = a * 10 ^ N.of_nat (List.length s) + fold_left dstep s 0).
  { clear. induction s as [|c r IH]; intros a.
    - cbn [fold_left List.length]. rewrite N.pow_0_r. lia.
    - cbn [fold_left List.length]. rewrite (IH (dstep a c)), (IH (dstep 0 c)).
      rewrite Nat2N.inj_succ, N.pow_succ_r'. unfold dstep. lia. }
  apply G.
Qed.
Lemma dval_cons c s : dval (c :: s) = digit_val c * 10 ^ N.of_nat (List.length s) + dval s.
Proof.
  change (dval (c :: s)) with (fold_left dstep s (dstep 0 c)).
  rewrite fold_dstep. unfold dstep. lia.
Qed.
Lemma dval_app2 s t : dval (s ++ t) = dval s * 10 ^ N.of_nat (List.length t) + dval t.
Proof. now rewrite dval_app, fold_dstep. Qed.

Lemma dec_fuel_app f n acc : dec_fuel f n acc = dec_fuel f n [] ++ acc.
Proof.
  revert n acc; induction f as [|f IH]; intros n acc; cbn [dec_fuel]; [easy|].
  destruct (n <? 10); [easy|].
  rewrite IH, (IH _ [_]), <- app_assoc. easy.
Qed.

Lemma div10_pow2 n k : n < 2 ^ N.succ k -> n / 10 < 2 ^ k.
Proof.
  intros H. rewrite N.pow_succ_r' in H.
  apply N.div_lt_upper_bound; [lia|]. lia.
Qed.

Lemma dec_fuel_spec f n :
  n < 2 ^ N.of_nat f ->
  dval (dec_fuel (S f) n []) = n /\ forallb is_digit (dec_fuel (S f) n []) = true
  /\ dec_fuel (S f) n [] <> [].
Proof.
  revert n; induction f as [|f IH]; intros n Hn.
  - assert (n = 0) by (change (2 ^ N.of_nat 0) with 1 in Hn; lia). subst n.
    split; [reflexivity|split; [reflexivity|discriminate]].
  - remember (S f) as g. cbn [dec_fuel].
    assert (Hm : n mod 10 < 10) by (apply N.mod_lt; lia).
    destruct (N.ltb_spec n 10) as [Hl|Hl].
    + rewrite N.mod_small by lia. repeat split.
      * unfold dval; cbn [fold_left]. rewrite digit_val_chr by lia. lia.
      * cbn [forallb]. rewrite is_digit_digit_chr by lia. reflexivity.
      * discriminate.
    + rewrite dec_fuel_app. subst g.
      destruct (IH (n / 10)) as (E1 & E2 & E3).
      { apply div10_pow2. now rewrite <- Nat2N.inj_succ. }
      repeat split.
      * rewrite dval_app2, E1. cbn [List.length]. rewrite dval_cons.
        cbn [List.length]. rewrite digit_val_chr by lia.
        change (10 ^ N.of_nat 1) with 10. change (10 ^ N.of_nat 0) with 1.
        unfold dval; cbn [fold_left].
        pose proof (N.div_mod n 10). lia.
      * rewrite forallb_app, E2. cbn [forallb]. rewrite is_digit_digit_chr by lia. reflexivity.
      * intros E. apply app_eq_nil in E. destruct E; discriminate.
Qed.

Lemma size_nat_bound n : n < 2 ^ N.of_nat (N.size_nat n).
Proof.
  destruct n as [|p]; [reflexivity|].
  assert (G : N.of_nat (N.size_nat (N.pos p)) = N.size (N.pos p)).
  { simpl. induction p as [p IH|p IH|]; cbn [Pos.size_nat Pos.size]; [| |reflexivity];
    rewrite Nat2N.inj_succ, IH; reflexivity. }
  rewrite G. apply N.size_gt.
Qed.

Lemma dval_dec n : dval (dec n) = n.
Proof. apply dec_fuel_spec, size_nat_bound. Qed.
Lemma dec_digits n : forallb is_digit (dec n) = true.
Proof. apply dec_fuel_spec, size_nat_bound. Qed.
Lemma dec_nonempty n : dec n <> [].
Proof. apply dec_fuel_spec, size_nat_bound. Qed.

(* length of the decimal form *)
Lemma dec_fuel_length f n w :
  n < 2 ^ N.of_nat f -> (0 < w)%nat -> n < 10 ^ N.of_nat w ->
  (List.length (dec_fuel (S f) n []) <= w)%nat.
Proof.
  revert n w; induction f as [|f IH]; intros n w Hn Hw Hb.
  - assert (n = 0) by (change (2 ^ N.of_nat 0) with 1 in Hn; lia). subst n. simpl. lia.
  - remember (S f) as g. cbn [dec_fuel].
    destruct (N.ltb_spec n 10) as [Hl|Hl]; [simpl; lia|].
    rewrite dec_fuel_app, app_length. subst g. cbn [List.length].
    destruct w as [|[|w]]; [lia| |].
    + change (10 ^ N.of_nat 1) with 10 in Hb. lia.
    + assert ((List.length (dec_fuel (S f) (n / 10) []) <= S w)%nat); [|lia].
      apply IH; [|lia|].
      * apply div10_pow2. now rewrite <- Nat2N.inj_succ.
      * apply N.div_lt_upper_bound; [lia|]. rewrite (Nat2N.inj_succ (S w)), N.pow_succ_r' in Hb. lia.
Qed.
Lemma dec_length n w : (0 < w)%nat -> n < 10 ^ N.of_nat w -> (List.length (dec n) <= w)%nat.
Proof. intros; apply dec_fuel_length; auto. apply size_nat_bound. Qed.

Lemma dval_zeros k s : dval (repeat (chr 48) k ++ s) = dval s.
Proof.
  induction k as [|k IH]; [easy|]. cbn [repeat app]. rewrite dval_cons, IH.
  unfold digit_val. rewrite ord_chr by lia. lia.
Qed.
Lemma dval_dec_pad w n : dval (dec_pad w n) = n.
Proof. unfold dec_pad, pad0. rewrite dval_zeros. apply dval_dec. Qed.
Lemma dec_pad_digits w n : forallb is_digit (dec_pad w n) = true.
Proof.
  unfold dec_pad, pad0. rewrite forallb_app, dec_digits, andb_true_r.
  apply forallb_forall. intros c Hc. apply repeat_spec in Hc. subst. reflexivity.
Qed.
Lemma dec_pad_length w n : (0 < w)%nat -> n < 10 ^ N.of_nat w -> List.length (dec_pad w n) = w.
Proof.
  intros Hw Hn. unfold dec_pad, pad0. rewrite app_length, repeat_length.
  pose proof (dec_length n w Hw Hn). lia.
Qed.
Lemma dec_pad_nonempty w n : dec_pad w n <> [].
Proof.
  unfold dec_pad, pad0. intros E. apply app_eq_nil in E. destruct E as [_ E].
  exact (dec_nonempty n E).
Qed.

Lemma parse_N_dec n : parse_N (dec n) = Some n.
Proof.
  unfold parse_N. pose proof (dec_nonempty n). destruct (dec n) eqn:E; [easy|].
  rewrite <- E, dec_digits, dval_dec. easy.
Qed.
Lemma parse_N_dec_pad w n : parse_N (dec_pad w n) = Some n.
Proof.
  unfold parse_N. pose proof (dec_pad_nonempty w n). destruct (dec_pad w n) eqn:E; [easy|].
  rewrite <- E, dec_pad_digits, dval_dec_pad. easy.
Qed.
Lemma dec_inj n m : dec n = dec m -> n = m.
Proof. intros H. rewrite <- (dval_dec n), H. apply dval_dec. Qed.

Lemma parse_Z_dec n : parse_Z (dec n) = Some (Z.of_N n).
Proof.
  pose proof (dec_nonempty n) as Hne. pose proof (dec_digits n) as Hd.
  pose proof (parse_N_dec n) as Hp.
  unfold parse_Z. destruct (dec n) as [|c r] eqn:E; [easy|].
  cbn [forallb] in Hd. apply andb_true_iff in Hd. destruct Hd as [Hc _].
  apply is_digit_ord in Hc.
  destruct (Ascii.eqb_spec c (chr 45)) as [->|_]; [rewrite ord_chr in Hc; lia|].
  destruct (Ascii.eqb_spec c (chr 43)) as [->|_]; [rewrite ord_chr in Hc; lia|].
  rewrite Hp. reflexivity.
Qed.
Lemma parse_Z_dec_Z z : parse_Z (dec_Z z) = Some z.
Proof.
  unfold dec_Z. destruct (Z.ltb_spec z 0) as [H|H].
  - unfold parse_Z. rewrite Ascii.eqb_refl, parse_N_dec. cbn [option_map]. f_equal. lia.
  - rewrite parse_Z_dec. f_equal. lia.
Qed.

(* split / join *)
Lemma split_on_nonempty sep s : split_on sep s <> [].
Proof. destruct s as [|c r]; simpl; [easy|]. destruct (Ascii.eqb c sep); [easy|]. destruct (split_on sep r); easy. Qed.

Lemma split_on_nosep sep s : ~ In sep s -> split_on sep s = [s].
Proof.
  induction s as [|c r IH]; intros H; [easy|].
  cbn [split_on]. destruct (Ascii.eqb_spec c sep) as [->|Hne]; [exfalso; apply H; now left|].
  rewrite IH; [easy|]. intros Hin; apply H; now right.
Qed.
Lemma split_on_app sep s t :
  ~ In sep s -> split_on sep (s ++ sep :: t) = s :: split_on sep t.
Proof.
  induction s as [|c r IH]; intros H.
  - cbn. now rewrite Ascii.eqb_refl.
  - cbn [split_on app]. destruct (Ascii.eqb_spec c sep) as [->|Hne]; [exfalso; apply H; now left|].
    rewrite IH; [easy|]. intros Hin; apply H; now right.
Qed.
Lemma split_join sep l :
  l <> [] -> (forall x, In x l -> ~ In sep x) -> split_on sep (join_with [sep] l) = l.
Proof.
  induction l as [|x r IH]; intros Hne H; [easy|].
  destruct r as [|y r].
  - cbn. apply split_on_nosep. apply H. now left.
  - change (join_with [sep] (x :: y :: r)) with (x ++ sep :: join_with [sep] (y :: r)).
    rewrite split_on_app by (apply H; now left).
    rewrite IH; [easy|easy|]. intros z Hz. apply H. now right.
Qed.
Lemma join_split sep s : join_with [sep] (split_on sep s) = s.
Proof.
  induction s as [|c r IH]; [easy|].
  cbn [split_on]. pose proof (split_on_nonempty sep r) as Hne.
  destruct (Ascii.eqb_spec c sep) as [->|Hn].
  - destruct (split_on sep r) as [|f fs]; [easy|].
    change (join_with [sep] ([] :: f :: fs)) with (sep :: join_with [sep] (f :: fs)). now rewrite IH.
  - destruct (split_on sep r) as [|f [|g fs]]; [easy| |].
    + cbn in *. now rewrite IH.
    + change (join_with [sep] ((c :: f) :: g :: fs)) with (c :: join_with [sep] (f :: g :: fs)). now rewrite IH.
Qed.
Lemma split_on_no_sep_in sep s : forall x, In x (split_on sep s) -> ~ In sep x.
Proof.
  induction s as [|c r IH]; intros x Hx.
  - destruct Hx as [<-|[]]. easy.
  - cbn [split_on] in Hx. destruct (Ascii.eqb_spec c sep) as [->|Hn].
    + destruct Hx as [<-|Hx]; [easy|auto].
    + destruct (split_on sep r) as [|f fs].
      * destruct Hx as [<-|[]]. intros [E|[]]. congruence.
      * destruct Hx as [<-|Hx].
        -- intros [E|E]; [congruence|]. revert E. apply IH. now left.
        -- apply IH. now right.
Qed.

Lemma break_on_nosep sep s : ~ In sep s -> break_on sep s = (s, None).
Proof.
  induction s as [|c r IH]; intros H; [easy|].
  cbn [break_on]. destruct (Ascii.eqb_spec c sep) as [->|Hne]; [exfalso; apply H; now left|].
  rewrite IH; [easy|]. intros Hin; apply H; now right.
Qed.
Lemma break_on_app sep s t : ~ In sep s -> break_on sep (s ++ sep :: t) = (s, Some t).
Proof.
  induction s as [|c r IH]; intros H.
  - cbn. now rewrite Ascii.eqb_refl.
  - cbn [break_on app]. destruct (Ascii.eqb_spec c sep) as [->|Hne]; [exfalso; apply H; now left|].
    rewrite IH; [easy|]. intros Hin; apply H; now right.
Qed.

Lemma starts_with_spec p s : starts_with p s = true <-> exists t, s = p ++ t.
Proof.
  revert s; induction p as [|a p IH]; intros s; simpl.
  - split; [exists s; easy|easy].
  - destruct s as [|b s].
    + split; [easy|]. intros [t H]; discriminate.
    + rewrite andb_true_iff, Ascii.eqb_eq, IH. split.
      * intros [-> [t ->]]. now exists t.
      * intros [t H]. injection H; intros; subst. split; [easy|now exists t].
Qed.

Lemma digits_no_byte c s : forallb is_digit s = true -> is_digit c = false -> ~ In c s.
Proof.
  intros H Hc Hin. rewrite forallb_forall in H. rewrite (H _ Hin) in Hc. discriminate.
Qed.
