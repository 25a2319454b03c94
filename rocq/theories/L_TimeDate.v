(** Dates like 2001/3/23 and 3/23/2001, and durations in words. *)
From Coq Require Import List ZArith Bool Ascii Lia.
From Verif Require Import Base L_Base M_Time L_Time.
Import List ListNotations.
Local Open Scope Z_scope.

Lemma stringtotime_mixed c1 c2 off t :
  zone_ok off -> 1900 < year_of (t + off) < 2100 ->
  let '(y, mo, d, h, mi, s) := gmtime (t + off) in
  stringtotime (d4 y ++ chr 45 :: d2 mo ++ chr 45 :: d2 d ++ chr 84 :: d2 h
    ++ tsep c1 :: d2 mi ++ tsep c1 :: d2 s ++ get_tzd c2 off) = Some (t + off + tzd_read off).
Proof.
  intros Hz. unfold year_of.
  pose proof (gmtime_spec (t + off)) as G.
  destruct (gmtime (t + off)) as [[[[[y mo] d] h] mi] s].
  destruct G as (G & Hmo & Hd & Hh & Hmi & Hs). intros Hy.
  unfold stringtotime.
  set (body := d4 y ++ chr 45 :: d2 mo ++ chr 45 :: d2 d ++ chr 84 :: d2 h
    ++ tsep c1 :: d2 mi ++ tsep c1 :: d2 s).
  match goal with |- context [firstn 19 ?x] => replace x with (body ++ get_tzd c2 off) end.
  2: { unfold body. repeat (rewrite <- ?app_assoc; cbn [app]). reflexivity. }
  assert (Lb : List.length body = 19%nat).
  { unfold body. repeat (rewrite app_length; cbn [List.length]).
    rewrite d4_length, !d2_length by lia. reflexivity. }
  rewrite <- Lb.
  rewrite firstn_app, Nat.sub_diag, firstn_all. cbn [firstn]. rewrite app_nil_r.
  rewrite skipn_app, Nat.sub_diag, skipn_all. cbn [skipn app].
  unfold body.
  rewrite (tsplit_app (d4 y)) by (try apply dec_pad_digits; reflexivity).
  rewrite (tsplit_app (d2 mo)) by (try apply dec_pad_digits; reflexivity).
  rewrite (tsplit_app (d2 d)) by (try apply dec_pad_digits; reflexivity).
  rewrite (tsplit_app (d2 h)) by (try apply dec_pad_digits; apply tsep_is).
  rewrite (tsplit_app (d2 mi)) by (try apply dec_pad_digits; apply tsep_is).
  rewrite tsplit_nosep by apply dec_pad_digits.
  cbn [map]. unfold d4, d2. rewrite !parse_Z_pad by lia.
  match goal with |- (if ?b then _ else _) = _ => replace b with true by lia end.
  rewrite tzd_roundtrip by easy. now rewrite G.
Qed.

Definition dsep (c : ascii) : bool := Ascii.eqb c (chr 45) || Ascii.eqb c (chr 47).

Lemma split_date_nosep f : forallb is_digit f = true -> split_date f = [f].
Proof.
  induction f as [|c r IH]; intros H; [easy|].
  cbn [forallb] in H. apply andb_true_iff in H. destruct H as [Hc Hr].
  cbn [split_date]. fold (split_date r).
  assert (E : Ascii.eqb c (chr 45) || Ascii.eqb c (chr 47) = false).
  { apply orb_false_iff. apply is_digit_ord in Hc.
    split; apply Ascii.eqb_neq; intros ->; rewrite ord_chr in Hc; lia. }
  rewrite E. unfold split_date in IH |- *. now rewrite IH.
Qed.
Lemma split_date_app f c r : forallb is_digit f = true -> dsep c = true ->
  split_date (f ++ c :: r) = f :: split_date r.
Proof.
  intros H Hs. induction f as [|x f IH]; cbn [app].
  - cbn [split_date]. unfold dsep in Hs. now rewrite Hs.
  - cbn [forallb] in H. apply andb_true_iff in H. destruct H as [Hx Hf].
    cbn [split_date].
    assert (E : Ascii.eqb x (chr 45) || Ascii.eqb x (chr 47) = false).
    { apply orb_false_iff. apply is_digit_ord in Hx.
      split; apply Ascii.eqb_neq; intros ->; rewrite ord_chr in Hx; lia. }
    rewrite E. unfold split_date in IH |- *. rewrite (IH Hf). reflexivity.
Qed.

Lemma seps_dsep c : dsep c = true -> (seps [c] <= 1)%nat.
Proof. intros _. unfold seps. cbn. destruct (is_tsep c); cbn; lia. Qed.
Lemma seps_tzd c off : (seps (get_tzd c off) <= 2)%nat.
Proof.
  unfold get_tzd. destruct (beq_bytes _ _); [cbn; lia|].
  rewrite seps_app.
  set (sg := if off <? 0 then chr 45 else chr 43).
  change (sg :: d2 (Z.abs off / 3600)) with ([sg] ++ d2 (Z.abs off / 3600)).
  change (tsep c :: d2 (Z.abs off mod 3600 / 60)) with ([tsep c] ++ d2 (Z.abs off mod 3600 / 60)).
  rewrite !seps_app.
  pose proof (seps_digits (d2 (Z.abs off / 3600)) (dec_pad_digits _ _)) as A.
  pose proof (seps_digits (d2 (Z.abs off mod 3600 / 60)) (dec_pad_digits _ _)) as B.
  unfold seps in *. rewrite A, B. unfold sg. destruct c, (off <? 0); cbn; lia.
Qed.

(* three fields of digits joined by two date separators *)
Lemma date_skeleton compat pretty ref times off a b e s1 s2 :
  forallb is_digit a = true -> forallb is_digit b = true -> forallb is_digit e = true ->
  a <> [] -> e <> [] -> dsep s1 = true -> dsep s2 = true ->
  pretty (a ++ s1 :: b ++ s2 :: e) = None ->
  genstrtotime compat (get_tzd compat off) pretty ref times (a ++ s1 :: b ++ s2 :: e)
  = (if is_year a && is_md b && is_md e then
       stringtotime (a ++ chr 45 :: dec_pad 2 (dval b) ++ chr 45 :: dec_pad 2 (dval e)
                     ++ bs "T00:00:00" ++ get_tzd compat off)
     else if is_md a && is_md b && is_year e then
       stringtotime (e ++ chr 45 :: dec_pad 2 (dval a) ++ chr 45 :: dec_pad 2 (dval b)
                     ++ bs "T00:00:00" ++ get_tzd compat off)
     else None).
Proof.
  intros Ha Hb He Na Ne H1 H2 Hp. set (s := a ++ s1 :: b ++ s2 :: e) in *.
  assert (HN1 : is_digit s1 = false).
  { unfold dsep in H1. apply orb_true_iff in H1. destruct H1 as [E|E]; apply Ascii.eqb_eq in E; now subst. }
  unfold genstrtotime.
  destruct a as [|x a']; [easy|]. cbn [forallb] in Ha.
  destruct (andb_prop _ _ Ha) as [Hx Ha'].
  assert (E1 : beq_bytes s (bs "now") = false) by (apply now_no_digit; exact Hx).
  rewrite E1.
  assert (E2 : all_digits s = false).
  { unfold all_digits. unfold s. cbn [app forallb]. rewrite Hx, forallb_app. cbn [forallb andb].
    rewrite HN1. now rewrite andb_false_r. }
  rewrite E2.
  assert (Es : (seps s <= 2)%nat).
  { unfold s. change ((x :: a') ++ s1 :: b ++ s2 :: e) with ((x :: a') ++ [s1] ++ b ++ [s2] ++ e).
    rewrite !seps_app, (seps_digits (x :: a')), (seps_digits b), (seps_digits e) by easy.
    pose proof (seps_dsep s1 H1). pose proof (seps_dsep s2 H2). lia. }
  pose proof (seps_tzd compat off) as Ez.
  rewrite (stringtotime_few_seps s) by lia.
  rewrite (stringtotime_few_seps (s ++ _)) by (rewrite seps_app; lia).
  cbn [or_zero].
  assert (E3 : session_num s = None).
  { unfold session_num. destruct (exists_last Ne) as (e' & y & ->).
    unfold s. change ((x :: a') ++ s1 :: b ++ s2 :: e' ++ [y]) with ((x :: a') ++ [s1] ++ b ++ [s2] ++ e' ++ [y]).
    rewrite !app_assoc, rev_app_distr. cbn [rev app].
    rewrite forallb_app in He. apply andb_prop in He. destruct He as [_ Hy]. cbn [forallb] in Hy.
    rewrite andb_true_r in Hy. apply is_digit_ord in Hy.
    destruct (Ascii.eqb_spec y (chr 66)) as [->|_]; [rewrite ord_chr in Hy; lia|easy]. }
  rewrite E3, Hp.
  assert (E4 : intervalstr_to_seconds s = None).
  { unfold intervalstr_to_seconds. destruct (_ <? 2)%nat; [easy|].
    destruct (List.length s) eqn:El; [unfold s in El; cbn in El; discriminate|].
    cbn [interval_loop]. unfold s. cbn [app].
    change (x :: a' ++ s1 :: b ++ s2 :: e) with ((x :: a') ++ s1 :: b ++ s2 :: e).
    rewrite span_digits_app by easy.
    assert (U : interval_unit s1 = None).
    { unfold dsep in H1. apply orb_true_iff in H1.
      destruct H1 as [E|E]; apply Ascii.eqb_eq in E; subst; reflexivity. }
    now rewrite U. }
  rewrite E4. unfold parse_date, s.
  rewrite split_date_app, split_date_app, split_date_nosep by easy.
  destruct (is_year (x :: a') && is_md b && is_md e); [reflexivity|].
  destruct (is_md (x :: a') && is_md b && is_year e); reflexivity.
Qed.

(* a month or day number: one or two digits *)
Definition md_str (z : Z) (f : bytes) : Prop :=
  forallb is_digit f = true /\ (List.length f = 1 \/ List.length f = 2)%nat /\ dval f = Z.to_N z.

Lemma gen_date compat pretty ref times off t y mo d s1 s2 fm fd :
  zone_ok off -> (0 <= off \/ off mod 3600 = 0) -> 1900 < y < 2100 ->
  gmtime (t + off) = (y, mo, d, 0, 0, 0) -> dsep s1 = true -> dsep s2 = true ->
  md_str mo fm -> md_str d fd ->
  let s := d4 y ++ s1 :: fm ++ s2 :: fd in
  let s' := fm ++ s1 :: fd ++ s2 :: d4 y in
  (pretty s = None -> genstrtotime compat (get_tzd compat off) pretty ref times s = Some t)
  /\ (pretty s' = None -> genstrtotime compat (get_tzd compat off) pretty ref times s' = Some t).
Proof.
  intros Hz Ho Hy G H1 H2 (Dm & Lm & Vm) (Dd & Ld & Vd) s s'.
  assert (Y : is_year (d4 y) = true).
  { unfold is_year. unfold d4 at 2. rewrite dec_pad_digits, d4_length by lia. reflexivity. }
  assert (MM : is_md fm = true).
  { unfold is_md. rewrite Dm. destruct Lm as [-> | ->]; reflexivity. }
  assert (MD : is_md fd = true).
  { unfold is_md. rewrite Dd. destruct Ld as [-> | ->]; reflexivity. }
  assert (YM : is_md (d4 y) = false).
  { unfold is_md. rewrite d4_length by lia. reflexivity. }
  assert (Ny : d4 y <> []) by (unfold d4; apply dec_pad_nonempty).
  assert (Nm : fm <> []) by (intros ->; cbn in Lm; destruct Lm; discriminate).
  assert (Nd : fd <> []) by (intros ->; cbn in Ld; destruct Ld; discriminate).
  assert (Mnot : is_year fm = false).
  { unfold is_year. destruct Lm as [-> | ->]; reflexivity. }
  pose proof (stringtotime_mixed false compat off t Hz) as K.
  unfold year_of in K. rewrite G in K. specialize (K Hy).
  assert (K' : stringtotime (d4 y ++ chr 45 :: dec_pad 2 (dval fm) ++ chr 45 :: dec_pad 2 (dval fd)
                     ++ bs "T00:00:00" ++ get_tzd compat off) = Some t).
  { rewrite Vm, Vd. fold (d2 mo) (d2 d).
    change (bs "T00:00:00" ++ get_tzd compat off)
      with (chr 84 :: d2 0 ++ tsep false :: d2 0 ++ tsep false :: d2 0 ++ get_tzd compat off).
    rewrite K. destruct Hz as [H60 _]. rewrite tzd_read_ok by easy. f_equal. lia. }
  split; intros Hp; unfold s, s' in *.
  - rewrite date_skeleton by (try assumption; try apply dec_pad_digits). now rewrite Y, MM, MD.
  - rewrite date_skeleton by (try assumption; try apply dec_pad_digits).
    rewrite Mnot, MM, MD, Y. exact K'.
Qed.

(* ---- durations in words ---- *)
Definition word_unit (w : bytes) : option Z :=
  if beq_bytes w (bs "hour") || beq_bytes w (bs "hours") then Some 3600
  else if beq_bytes w (bs "minute") || beq_bytes w (bs "minutes") then Some 60
  else if beq_bytes w (bs "second") || beq_bytes w (bs "seconds") then Some 1
  else None.
Fixpoint words_sum (l : list bytes) : option Z :=
  match l with
  | [] => Some 0
  | [_] => None
  | n :: w :: r =>
      match parse_Z n, word_unit w, words_sum r with
      | Some n', Some u, Some s => Some (n' * u + s)
      | _, _, _ => None
      end
  end.

Lemma split_words a b r : ~ In (chr 32) a -> ~ In (chr 32) b ->
  split_on (chr 32) (a ++ chr 32 :: b ++ chr 32 :: r) = a :: b :: split_on (chr 32) r.
Proof.
  intros Ha Hb. now rewrite !split_on_app by assumption.
Qed.
Lemma dec_Z_nosp z : ~ In (chr 32) (dec_Z z).
Proof.
  unfold dec_Z. destruct (z <? 0); cbn.
  - intros [E|H]; [discriminate|].
    pose proof (proj1 (forallb_forall _ _) (dec_digits _) _ H). discriminate.
  - intros H. pose proof (proj1 (forallb_forall _ _) (dec_digits _) _ H). discriminate.
Qed.

Lemma inttopretty_sum seconds : 0 <= seconds ->
  words_sum (split_on (chr 32) (inttopretty seconds)) = Some seconds.
Proof.
  intros H0. unfold inttopretty.
  set (h := seconds / 3600). set (m := seconds mod 3600 / 60). set (s := (seconds mod 3600) mod 60).
  assert (E : seconds = 3600 * h + 60 * m + s) by (unfold h, m, s; lia).
  assert (Hh : 0 <= h) by (unfold h; lia). assert (Hm : 0 <= m) by (unfold m; lia).
  assert (Hs : 0 <= s) by (unfold s; lia). clearbody h m s.
  assert (One : forall n w u r x, ~ In (chr 32) w -> word_unit w = Some u -> words_sum (split_on (chr 32) r) = Some x ->
     words_sum (split_on (chr 32) ((dec_Z n ++ chr 32 :: w) ++ chr 32 :: r)) = Some (n * u + x)).
  { intros n w u r x Hw Hu Hr. rewrite <- app_assoc. cbn [app].
    rewrite split_words by (try apply dec_Z_nosp; assumption).
    cbn [words_sum]. now rewrite parse_Z_dec_Z, Hu, Hr. }
  assert (Last : forall n w u, ~ In (chr 32) w -> word_unit w = Some u ->
     words_sum (split_on (chr 32) (dec_Z n ++ chr 32 :: w)) = Some (n * u)).
  { intros n w u Hw Hu. rewrite split_on_app by apply dec_Z_nosp.
    rewrite split_on_nosep by assumption. cbn [words_sum].
    rewrite parse_Z_dec_Z, Hu. f_equal. lia. }
  assert (W : forall w, In w (map bs ["hour"; "hours"; "minute"; "minutes"; "second"; "seconds"]%string) -> ~ In (chr 32) w).
  { intros w Hw. cbn [map In] in Hw.
    repeat (destruct Hw as [<-|Hw]; [vm_compute; intuition discriminate|]). destruct Hw. }
  set (pick := fun n one many => if 1 <? n then [dec_Z n ++ chr 32 :: many] else if n =? 1 then [dec_Z 1 ++ chr 32 :: one] else []).
  change (bs " hours") with (chr 32 :: bs "hours"). change (bs " minutes") with (chr 32 :: bs "minutes").
  change (bs " seconds") with (chr 32 :: bs "seconds").
  change (bs "1 hour") with (dec_Z 1 ++ chr 32 :: bs "hour").
  change (bs "1 minute") with (dec_Z 1 ++ chr 32 :: bs "minute").
  change (bs "1 second") with (dec_Z 1 ++ chr 32 :: bs "second").
  subst seconds.
  destruct (Z.ltb_spec 1 h) as [h1|h1]; [|destruct (Z.eqb_spec h 1) as [h2|h2]];
  (destruct (Z.ltb_spec 1 m) as [m1|m1]; [|destruct (Z.eqb_spec m 1) as [m2|m2]]);
  (destruct (Z.eqb_spec s 1) as [s2|s2]; [|destruct (Z.ltb_spec 1 s) as [s1|s1]]);
  cbn [app join_with];
  (eapply eq_trans;
   [ repeat first
       [ eapply One; [apply W; cbn; tauto|reflexivity|]
       | eapply Last; [apply W; cbn; tauto|reflexivity] ]
   | f_equal; lia ]).
Qed.
