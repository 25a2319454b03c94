(* L_Time.v -- proofs about M_Time.v *)
From Verif Require Import Base L_Base M_Time.
From Coq Require Import ZifyBool ZifyNat ZifyN.
Local Open Scope Z_scope.
Ltac Zify.zify_post_hook ::= Z.div_mod_to_equations.

(* ---- calendar ---- *)
Lemma is_leap_400 y k : is_leap (y + 400 * k) = is_leap y.
Proof.
  unfold is_leap.
  replace ((y + 400 * k) mod 4) with (y mod 4) by lia.
  replace ((y + 400 * k) mod 100) with (y mod 100) by lia.
  replace ((y + 400 * k) mod 400) with (y mod 400) by lia. easy.
Qed.
Lemma dbm_400 y m k : days_before_month (y + 400 * k) m = days_before_month y m.
Proof. unfold days_before_month. now rewrite is_leap_400. Qed.
Lemma dim_400 y m k : days_in_month (y + 400 * k) m = days_in_month y m.
Proof. unfold days_in_month. now rewrite is_leap_400. Qed.
Lemma toordinal_400 y m d k : toordinal (y + 400 * k) m d = toordinal y m d + 146097 * k.
Proof. unfold toordinal. rewrite dbm_400. unfold days_before_year. lia. Qed.

Lemma ord2ymd_era r k : 0 <= r < 146097 ->
  ord2ymd (r + 1 + 146097 * k) =
  let '(y, m, d) := ord2ymd (r + 1) in (y + 400 * k, m, d).
Proof.
  intros Hr. unfold ord2ymd.
  replace ((r + 1 + 146097 * k - 1) / 146097) with k by lia.
  replace ((r + 1 + 146097 * k - 1) mod 146097) with r by lia.
  replace ((r + 1 - 1) / 146097) with 0 by lia.
  replace ((r + 1 - 1) mod 146097) with r by lia.
  set (n100 := r / 36524). set (n4 := r mod 36524 / 1461).
  set (n1 := (r mod 36524) mod 1461 / 365). set (n := ((r mod 36524) mod 1461) mod 365).
  destruct ((n1 =? 4) || (n100 =? 4)).
  - f_equal; f_equal. lia.
  - replace (k * 400 + 1 + n100 * 100 + n4 * 4 + n1) with ((0 * 400 + 1 + n100 * 100 + n4 * 4 + n1) + 400 * k) by lia.
    rewrite dbm_400, dim_400. destruct (n <? _); reflexivity.
Qed.

Definition ymd_ok (r : Z) : bool :=
  let '(y, m, d) := ord2ymd (r + 1) in
  (toordinal y m d =? r + 1) && (1 <=? m) && (m <=? 12) && (1 <=? d) && (d <=? 31).
Fixpoint sweep (n : nat) (r : Z) : bool :=
  match n with O => true | S n => ymd_ok r && sweep n (r + 1) end.
Lemma sweep_spec n : forall r, sweep n r = true -> forall x, r <= x < r + Z.of_nat n -> ymd_ok x = true.
Proof.
  induction n as [|n IH]; intros r H x Hx; [lia|].
  cbn [sweep] in H. apply andb_true_iff in H. destruct H as [H1 H2].
  destruct (Z.eq_dec x r) as [->|]; [easy|]. apply (IH (r + 1) H2). lia.
Qed.
Lemma sweep_all : sweep (Z.to_nat 146097) 0 = true.
Proof. vm_cast_no_check (eq_refl true). Qed.

Lemma ord2ymd_spec n :
  let '(y, m, d) := ord2ymd n in
  toordinal y m d = n /\ 1 <= m <= 12 /\ 1 <= d <= 31.
Proof.
  assert (H : forall r k, 0 <= r < 146097 ->
    let '(y, m, d) := ord2ymd (r + 1 + 146097 * k) in
    toordinal y m d = r + 1 + 146097 * k /\ 1 <= m <= 12 /\ 1 <= d <= 31).
  { intros r k Hr. rewrite ord2ymd_era by easy.
    pose proof (sweep_spec _ _ sweep_all r) as G. unfold ymd_ok in G.
    destruct (ord2ymd (r + 1)) as [[y m] d].
    rewrite toordinal_400. specialize (G ltac:(lia)). lia. }
  specialize (H ((n - 1) mod 146097) ((n - 1) / 146097) ltac:(lia)).
  replace ((n - 1) mod 146097 + 1 + 146097 * ((n - 1) / 146097)) with n in H by lia.
  exact H.
Qed.

Lemma gmtime_spec t :
  let '(y, mo, d, h, mi, s) := gmtime t in
  timegm y mo d h mi s = t /\ 1 <= mo <= 12 /\ 1 <= d <= 31 /\ 0 <= h <= 23 /\ 0 <= mi <= 59 /\ 0 <= s <= 59.
Proof.
  unfold gmtime. pose proof (ord2ymd_spec (t / 86400 + EPOCH_ORD)) as G.
  destruct (ord2ymd _) as [[y m] d]. unfold timegm. destruct G as (G & G1 & G2). rewrite G. lia.
Qed.

(* ---- printing and parsing ---- *)
Lemma tsplit_nosep f : forallb is_digit f = true -> tsplit f = [f].
Proof.
  induction f as [|c r IH]; intros H; [easy|].
  cbn [forallb] in H. apply andb_true_iff in H. destruct H as [Hc Hr].
  cbn [tsplit]. rewrite IH by easy.
  assert (is_tsep c = false) as ->; [|easy].
  apply is_digit_ord in Hc. unfold is_tsep.
  destruct (Ascii.eqb_spec c (chr 84)) as [->|_]; [rewrite ord_chr in Hc; lia|].
  destruct (Ascii.eqb_spec c (chr 58)) as [->|_]; [rewrite ord_chr in Hc; lia|].
  destruct (Ascii.eqb_spec c (chr 45)) as [->|_]; [rewrite ord_chr in Hc; lia|]. easy.
Qed.
Lemma tsplit_app f c r :
  forallb is_digit f = true -> is_tsep c = true -> tsplit (f ++ c :: r) = f :: tsplit r.
Proof.
  intros H Hc. induction f as [|x f IH]; [cbn [tsplit app]; now rewrite Hc|].
  pose proof (tsplit_nosep (x :: f) H) as G. cbn [tsplit] in G.
  cbn [forallb] in H. apply andb_true_iff in H. destruct H as [Hx Hf].
  cbn [tsplit app]. destruct (is_tsep x).
  - injection G. intros. discriminate.
  - now rewrite IH.
Qed.
Lemma tsep_is compat : is_tsep (tsep compat) = true.
Proof. destruct compat; reflexivity. Qed.

Lemma d2_digits z : forallb is_digit (d2 z) = true.
Proof. apply dec_pad_digits. Qed.
Lemma d2_length z : 0 <= z < 100 -> List.length (d2 z) = 2%nat.
Proof. intros H. apply dec_pad_length; [lia|]. change (10 ^ N.of_nat 2)%N with 100%N. lia. Qed.
Lemma d4_length z : 0 <= z < 10000 -> List.length (d4 z) = 4%nat.
Proof. intros H. apply dec_pad_length; [lia|]. change (10 ^ N.of_nat 4)%N with 10000%N. lia. Qed.

Lemma parse_Z_digits f : forallb is_digit f = true -> f <> [] -> parse_Z f = Some (Z.of_N (dval f)).
Proof.
  intros H Hne. destruct f as [|c r]; [easy|].
  assert (Hc : is_digit c = true) by (cbn [forallb] in H; now apply andb_true_iff in H).
  apply is_digit_ord in Hc. unfold parse_Z.
  destruct (Ascii.eqb_spec c (chr 45)) as [->|_]; [rewrite ord_chr in Hc; lia|].
  destruct (Ascii.eqb_spec c (chr 43)) as [->|_]; [rewrite ord_chr in Hc; lia|].
  unfold parse_N. now rewrite H.
Qed.
Lemma parse_Z_pad w z : 0 <= z -> parse_Z (dec_pad w (Z.to_N z)) = Some z.
Proof.
  intros H. rewrite parse_Z_digits; [|apply dec_pad_digits|apply dec_pad_nonempty].
  rewrite dval_dec_pad. f_equal. lia.
Qed.

Definition zone_ok (off : Z) : Prop := off mod 60 = 0 /\ -360000 < off < 360000.

(* what the program reads back from the zone string it wrote *)
Definition tzd_read (off : Z) : Z :=
  if off <? 0 then 3600 * (- off / 3600) - 60 * (- off mod 3600 / 60) else - off.

Lemma tzd_roundtrip compat off : zone_ok off ->
  tzd_to_seconds (get_tzd compat off) = Some (tzd_read off).
Proof.
  intros [H60 Hb]. unfold get_tzd.
  set (hh := Z.abs off / 3600). set (mm := Z.abs off mod 3600 / 60).
  assert (Hh : 0 <= hh < 100) by (unfold hh; lia).
  assert (Hm : 0 <= mm < 100) by (unfold mm; lia).
  pose proof (d2_length hh Hh) as Lh. pose proof (d2_length mm Hm) as Lm.
  pose proof (parse_Z_pad 2 hh ltac:(lia)) as Ph. pose proof (parse_Z_pad 2 mm ltac:(lia)) as Pm.
  fold (d2 hh) in Ph. fold (d2 mm) in Pm.
  pose proof (d2_digits hh) as Dh. pose proof (d2_digits mm) as Dm.
  set (sg := if off <? 0 then chr 45 else chr 43).
  destruct (beq_bytes (sg :: d2 hh ++ d2 mm) (bs "+0000")) eqn:E.
  - (* offset zero *)
    apply beq_bytes_true in E.
    assert (dval (d2 hh ++ d2 mm) = 0%N).
    { replace (d2 hh ++ d2 mm) with (bs "0000"); [reflexivity|].
      change (bs "+0000") with (chr 43 :: bs "0000") in E. congruence. }
    rewrite dval_app2, Lm in H. unfold d2 in H. rewrite !dval_dec_pad in H.
    change (10 ^ N.of_nat 2)%N with 100%N in H.
    assert (hh = 0 /\ mm = 0) by lia. unfold tzd_read.
    unfold tzd_to_seconds. replace (beq_bytes (bs "Z") (bs "Z")) with true by reflexivity.
    f_equal. unfold hh, mm in *. destruct (off <? 0) eqn:Eo; lia.
  - destruct (d2 hh) as [|h1 [|h2 [|]]] eqn:Eh; try discriminate Lh.
    destruct (d2 mm) as [|m1 [|m2 [|]]] eqn:Em; try discriminate Lm.
    unfold tzd_to_seconds. cbn [app].
    assert (Hz : beq_bytes [sg; h1; h2; tsep compat; m1; m2] (bs "Z") = false)
      by (apply beq_bytes_false; discriminate).
    rewrite Hz.
    assert (Hs : Ascii.eqb sg (chr 45) || Ascii.eqb sg (chr 43) = true)
      by (unfold sg; destruct (off <? 0); reflexivity).
    assert (Hc : Ascii.eqb (tsep compat) (chr 58) || Ascii.eqb (tsep compat) (chr 45) = true)
      by (destruct compat; reflexivity).
    rewrite Hs, Hc, Pm. cbn [andb].
    assert (Psg : parse_Z [sg; h1; h2] = Some (if off <? 0 then - hh else hh)).
    { assert (P0 : parse_N [h1; h2] = Some (Z.to_N hh)).
      { unfold parse_N. rewrite Dh. f_equal. rewrite <- Eh. apply dval_dec_pad. }
      unfold parse_Z, sg. destruct (off <? 0).
      - rewrite Ascii.eqb_refl, P0. cbn. f_equal. lia.
      - replace (Ascii.eqb (chr 43) (chr 45)) with false by reflexivity.
        rewrite Ascii.eqb_refl, P0. cbn. f_equal. lia. }
    rewrite Psg. f_equal. unfold tzd_read, hh, mm.
    destruct (off <? 0) eqn:Eo; lia.
Qed.

Definition year_of (t : Z) : Z := let '(y, _, _, _, _, _) := gmtime t in y.

Lemma stringtotime_timetostring_gen compat off t :
  zone_ok off -> 1900 < year_of (t + off) < 2100 ->
  stringtotime (timetostring compat off t) = Some (t + off + tzd_read off).
Proof.
  intros Hz. unfold year_of, timetostring.
  pose proof (gmtime_spec (t + off)) as G.
  destruct (gmtime (t + off)) as [[[[[y mo] d] h] mi] s].
  destruct G as (G & Hmo & Hd & Hh & Hmi & Hs). intros Hy.
  unfold stringtotime.
  set (body := d4 y ++ chr 45 :: d2 mo ++ chr 45 :: d2 d ++ chr 84 :: d2 h
    ++ tsep compat :: d2 mi ++ tsep compat :: d2 s).
  match goal with |- context [firstn 19 ?x] => replace x with (body ++ get_tzd compat off) end.
  2: { unfold body. repeat (rewrite <- ?app_assoc; cbn [app]). reflexivity. }
  assert (Lb : List.length body = 19%nat).
  { unfold body. repeat (rewrite app_length; cbn [List.length]).
    rewrite d4_length, !d2_length by lia. reflexivity. }
  rewrite <- Lb.
  rewrite firstn_app, Nat.sub_diag, firstn_all. cbn [firstn]. rewrite app_nil_r.
  rewrite skipn_app, Nat.sub_diag, skipn_all. cbn [skipn app].
  unfold body.
  rewrite (tsplit_app (d4 y)) by (try apply dec_pad_digits; reflexivity).
  rewrite (tsplit_app (d2 mo)) by (try apply dec_pad_digits; reflexivity).
  rewrite (tsplit_app (d2 d)) by (try apply dec_pad_digits; reflexivity).
  rewrite (tsplit_app (d2 h)) by (try apply dec_pad_digits; apply tsep_is).
  rewrite (tsplit_app (d2 mi)) by (try apply dec_pad_digits; apply tsep_is).
  rewrite tsplit_nosep by apply dec_pad_digits.
  cbn [map]. unfold d4, d2. rewrite !parse_Z_pad by lia.
  match goal with |- (if ?b then _ else _) = _ => replace b with true by lia end.
  rewrite tzd_roundtrip by easy. now rewrite G.
Qed.

Lemma tzd_read_ok off : off mod 60 = 0 -> (0 <= off \/ off mod 3600 = 0) -> tzd_read off = - off.
Proof. intros H60 H. unfold tzd_read. destruct (Z.ltb_spec off 0); lia. Qed.

Lemma tzd_read_bad off : off mod 60 = 0 -> off < 0 ->
  tzd_read off = - off - 2 * (- off mod 3600).
Proof. intros H60 H. unfold tzd_read. destruct (Z.ltb_spec off 0); lia. Qed.

Lemma stringtotime_timetostring compat off t :
  zone_ok off -> (0 <= off \/ off mod 3600 = 0) -> 1900 < year_of (t + off) < 2100 ->
  stringtotime (timetostring compat off t) = Some t.
Proof.
  intros Hz Ho Hy. rewrite stringtotime_timetostring_gen by easy.
  destruct Hz as [H60 _]. rewrite tzd_read_ok by easy. f_equal. lia.
Qed.

Lemma stringtotime_negative_zone compat off t :
  zone_ok off -> off < 0 -> 1900 < year_of (t + off) < 2100 ->
  stringtotime (timetostring compat off t) = Some (t - 2 * (- off mod 3600)).
Proof.
  intros Hz Ho Hy. rewrite stringtotime_timetostring_gen by easy.
  destruct Hz as [H60 _]. rewrite tzd_read_bad by easy. f_equal. lia.
Qed.

(* the label contains no dot, slash or newline and only a fixed alphabet *)
Definition label_byte (c : ascii) : bool :=
  is_digit c || mem_byte c (bs "-:+TZ").
Lemma digits_label s : forallb is_digit s = true -> forallb label_byte s = true.
Proof. rewrite !forallb_forall. intros H x Hx. unfold label_byte. now rewrite H. Qed.
Lemma timetostring_bytes compat off t : forallb label_byte (timetostring compat off t) = true.
Proof.
  unfold timetostring. destruct (gmtime (t + off)) as [[[[[y mo] d] h] mi] s].
  assert (T : label_byte (tsep compat) = true) by (destruct compat; reflexivity).
  assert (Z0 : forallb label_byte (get_tzd compat off) = true).
  { unfold get_tzd. destruct (beq_bytes _ _); [reflexivity|].
    cbn [app forallb]. rewrite forallb_app. cbn [forallb].
    rewrite T, !digits_label by apply dec_pad_digits. destruct (off <? 0); reflexivity. }
  repeat (rewrite forallb_app; cbn [forallb]).
  rewrite T, Z0, !digits_label by apply dec_pad_digits. reflexivity.
Qed.
Lemma timetostring_nonempty compat off t : timetostring compat off t <> [].
Proof.
  unfold timetostring. destruct (gmtime (t + off)) as [[[[[y mo] d] h] mi] s].
  intros E. apply app_eq_nil in E. destruct E as [E _]. exact (dec_pad_nonempty _ _ E).
Qed.

(* ---- intervals ---- *)
Lemma span_digits_app n c r : forallb is_digit n = true -> is_digit c = false ->
  span_digits (n ++ c :: r) = (n, c :: r).
Proof.
  intros Hn Hc. induction n as [|x n IH]; cbn [app span_digits]; [now rewrite Hc|].
  cbn [forallb] in Hn. apply andb_true_iff in Hn. destruct Hn as [Hx Hn].
  now rewrite Hx, IH.
Qed.

(* an interval as the user means it: a list of (number, unit letter) *)
Definition interval_str (l : list (N * ascii)) : bytes :=
  flat_map (fun p => dec (fst p) ++ [snd p]) l.
Fixpoint interval_sum (unit : ascii -> option Z) (l : list (N * ascii)) : option Z :=
  match l with
  | [] => Some 0
  | (n, c) :: r =>
      match unit c, interval_sum unit r with
      | Some u, Some s => Some (Z.of_N n * u + s)
      | _, _ => None
      end
  end.

Lemma interval_unit_not_digit c u : interval_unit c = Some u -> is_digit c = false.
Proof.
  unfold interval_unit.
  repeat match goal with
  | |- context [if Ascii.eqb c ?x then _ else _] => destruct (Ascii.eqb_spec c x) as [->|_]; [intros _; reflexivity|]
  end. discriminate.
Qed.

Lemma interval_loop_spec l : forall fuel total s,
  interval_sum interval_unit l = Some s ->
  (List.length (interval_str l) <= fuel)%nat ->
  interval_loop fuel (interval_str l) total = Some (total + s).
Proof.
  induction l as [|[n c] l IH]; intros fuel total s Hs Hf.
  - cbn in *. injection Hs as <-. destruct fuel; cbn; f_equal; lia.
  - cbn [interval_sum] in Hs. destruct (interval_unit c) as [u|] eqn:Hu; [|discriminate].
    destruct (interval_sum interval_unit l) as [s'|] eqn:Hs'; [|discriminate]. injection Hs as <-.
    unfold interval_str in *. cbn [flat_map fst snd] in *.
    rewrite <- app_assoc in *. cbn [app] in *. rewrite app_length in Hf. cbn [List.length] in Hf.
    pose proof (dec_nonempty n) as Hne. pose proof (dec_digits n) as Hd. pose proof (dval_dec n) as Hv.
    pose proof (interval_unit_not_digit c u Hu) as Hc.
    pose proof (span_digits_app (dec n) c (flat_map (fun p => dec (fst p) ++ [snd p]) l) Hd Hc) as Hsp.
    destruct fuel as [|fuel]; [lia|].
    destruct (dec n) as [|x xs] eqn:E; [easy|].
    cbn [interval_loop app] in *. rewrite Hsp, Hu, Hv.
    rewrite (IH fuel _ s'); [f_equal; lia|easy|cbn [List.length] in Hf; lia].
Qed.

Lemma interval_str_length l : l <> [] -> (2 <= List.length (interval_str l))%nat.
Proof.
  destruct l as [|[n c] l]; [easy|]. intros _. unfold interval_str. cbn [flat_map fst snd].
  rewrite !app_length. pose proof (dec_nonempty n). destruct (dec n); [easy|]. cbn. lia.
Qed.

Lemma interval_spec l s :
  l <> [] -> interval_sum interval_unit l = Some s ->
  intervalstr_to_seconds (interval_str l) = Some s.
Proof.
  intros Hne Hs. unfold intervalstr_to_seconds.
  pose proof (interval_str_length l Hne).
  destruct (Nat.ltb_spec (List.length (interval_str l)) 2); [lia|].
  now rewrite (interval_loop_spec l _ 0 s).
Qed.

(* whatever is accepted is a sequence of numbers with units, never negative *)
Lemma span_digits_split s a b : span_digits s = (a, b) -> s = a ++ b /\ forallb is_digit a = true.
Proof.
  revert a b; induction s as [|c s IH]; intros a b H; cbn [span_digits] in H.
  - injection H as <- <-. easy.
  - destruct (is_digit c) eqn:E.
    + destruct (span_digits s) as [a' b'] eqn:E2. injection H as <- <-.
      destruct (IH a' b' eq_refl) as [-> Hd]. split; [easy|]. cbn. now rewrite E.
    + injection H as <- <-. easy.
Qed.
Lemma interval_unit_nonneg c u : interval_unit c = Some u -> 0 < u.
Proof.
  unfold interval_unit.
  repeat match goal with |- context [if ?b then _ else _] => destruct b end;
  intros H; inversion H; lia.
Qed.
Lemma interval_loop_mono fuel : forall s total r,
  interval_loop fuel s total = Some r ->
  exists l, s = flat_map (fun p => fst p ++ [snd p]) l
    /\ Forall (fun p => fst p <> [] /\ forallb is_digit (fst p) = true /\ interval_unit (snd p) <> None) l
    /\ interval_sum interval_unit (map (fun p => (dval (fst p), snd p)) l) = Some (r - total).
Proof.
  induction fuel as [|f IH]; intros s total r H.
  - destruct s; [|discriminate]. cbn in H. injection H as <-.
    exists []. cbn. repeat split; [constructor|f_equal; lia].
  - destruct s as [|c s].
    { cbn in H. injection H as <-. exists []. cbn. repeat split; [constructor|f_equal; lia]. }
    cbn [interval_loop] in H. destruct (span_digits (c :: s)) as [a b] eqn:E.
    apply span_digits_split in E. destruct E as [E Hd].
    destruct a as [|a0 a]; [discriminate|]. destruct b as [|b0 b]; [discriminate|].
    destruct (interval_unit b0) as [u|] eqn:Hu; [|discriminate].
    apply IH in H. destruct H as (l & -> & Hl & Hs).
    exists ((a0 :: a, b0) :: l). cbn [flat_map fst snd]. repeat split.
    + rewrite E, <- app_assoc. reflexivity.
    + constructor; [|easy]. cbn [fst snd]. rewrite Hu. easy.
    + cbn [map interval_sum fst snd]. rewrite Hu, Hs. f_equal. lia.
Qed.
Lemma intervalstr_sound s r :
  intervalstr_to_seconds s = Some r ->
  exists l, s = flat_map (fun p => fst p ++ [snd p]) l
    /\ Forall (fun p => fst p <> [] /\ forallb is_digit (fst p) = true /\ interval_unit (snd p) <> None) l
    /\ interval_sum interval_unit (map (fun p => (dval (fst p), snd p)) l) = Some r.
Proof.
  unfold intervalstr_to_seconds. destruct (_ <? 2)%nat; [discriminate|]. intros H.
  apply interval_loop_mono in H. now rewrite Z.sub_0_r in H.
Qed.

(* ---- sessions ---- *)
Lemma time_from_session_spec (times : list Z) n :
  (n < List.length times)%nat ->
  time_from_session n times = nth_error (rev times) n.
Proof.
  intros H. unfold time_from_session.
  destruct (Nat.leb_spec (List.length times) n); [lia|].
  destruct times as [|z times]; [cbn in H; lia|].
  rewrite (nth_error_nth' (rev (z :: times)) z) by (rewrite rev_length; easy).
  rewrite rev_nth by easy.
  replace (List.length (z :: times) - n - 1)%nat with (List.length (z :: times) - S n)%nat by lia.
  apply nth_error_nth'. lia.
Qed.
Lemma time_from_session_oldest (times : list Z) n :
  (List.length times <= n)%nat -> time_from_session n times = hd_error times.
Proof.
  intros H. unfold time_from_session. destruct (Nat.leb_spec (List.length times) n); [easy|lia].
Qed.

(* ---- genstrtotime ---- *)
Definition seps (s : bytes) : nat := List.length (filter is_tsep s).
Lemma tsplit_length s : List.length (tsplit s) = S (seps s).
Proof.
  unfold seps. induction s as [|c s IH]; [easy|]. cbn [tsplit filter].
  destruct (is_tsep c); cbn [List.length]; [now rewrite IH|].
  destruct (tsplit s); cbn [List.length] in *; lia.
Qed.
Lemma seps_app a b : seps (a ++ b) = (seps a + seps b)%nat.
Proof. unfold seps. now rewrite filter_app, app_length. Qed.
Lemma seps_firstn k s : (seps (firstn k s) <= seps s)%nat.
Proof.
  rewrite <- (firstn_skipn k s) at 2. rewrite seps_app. lia.
Qed.
Lemma stringtotime_few_seps s : (seps s < 5)%nat -> stringtotime s = None.
Proof.
  intros H. unfold stringtotime.
  pose proof (tsplit_length (firstn 19 s)) as L. pose proof (seps_firstn 19 s) as G.
  destruct (map parse_Z (tsplit (firstn 19 s))) as [|o1 [|o2 [|o3 [|o4 [|o5 [|o6 [|o7 r]]]]]]] eqn:E; try easy;
  repeat match goal with |- match ?o with _ => _ end = _ => destruct o; try easy end.
  exfalso. apply (f_equal (@List.length _)) in E. rewrite map_length, L in E. cbn [List.length] in E. lia.
Qed.
Lemma seps_digits s : forallb is_digit s = true -> seps s = 0%nat.
Proof.
  intros H. pose proof (tsplit_length s) as L. rewrite tsplit_nosep in L by easy.
  cbn in L. lia.
Qed.
Lemma interval_unit_not_sep c u : interval_unit c = Some u -> is_tsep c = false.
Proof.
  unfold interval_unit.
  repeat match goal with
  | |- context [if Ascii.eqb c ?x then _ else _] => destruct (Ascii.eqb_spec c x) as [->|_]; [intros _; reflexivity|]
  end. discriminate.
Qed.
Lemma interval_unit_not_B c u : interval_unit c = Some u -> Ascii.eqb c (chr 66) = false.
Proof.
  unfold interval_unit.
  repeat match goal with
  | |- context [if Ascii.eqb c ?x then _ else _] => destruct (Ascii.eqb_spec c x) as [->|_]; [intros _; reflexivity|]
  end. discriminate.
Qed.
Lemma seps_interval l s : interval_sum interval_unit l = Some s -> seps (interval_str l) = 0%nat.
Proof.
  revert s; induction l as [|[n c] l IH]; intros s H; [easy|].
  cbn [interval_sum] in H. destruct (interval_unit c) as [u|] eqn:Hu; [|discriminate].
  destruct (interval_sum interval_unit l) as [s'|] eqn:Hs'; [|discriminate].
  unfold interval_str. cbn [flat_map fst snd]. fold (interval_str l).
  rewrite !seps_app, (IH s' eq_refl), seps_digits by apply dec_digits.
  unfold seps. cbn [filter]. now rewrite (interval_unit_not_sep c u Hu).
Qed.
Lemma interval_last l s : l <> [] -> interval_sum interval_unit l = Some s ->
  exists p c u, interval_str l = p ++ [c] /\ interval_unit c = Some u.
Proof.
  revert s; induction l as [|[n c] l IH]; intros s Hne H; [easy|].
  cbn [interval_sum] in H. destruct (interval_unit c) as [u|] eqn:Hu; [|discriminate].
  destruct (interval_sum interval_unit l) as [s'|] eqn:Hs'; [|discriminate].
  unfold interval_str. cbn [flat_map fst snd]. fold (interval_str l).
  destruct l as [|q l].
  - exists (dec n), c, u. now rewrite app_nil_r.
  - destruct (IH s' ltac:(discriminate) eq_refl) as (p & c' & u' & E & Hu').
    exists ((dec n ++ [c]) ++ p), c', u'. rewrite E. now rewrite <- !app_assoc.
Qed.
Lemma all_digits_app_last p c : is_digit c = false -> all_digits (p ++ [c]) = false.
Proof.
  intros H. unfold all_digits. destruct (p ++ [c]) eqn:E; [easy|]. rewrite <- E, forallb_app.
  cbn. now rewrite H, andb_false_r.
Qed.
Lemma now_no_digit x r : is_digit x = true -> beq_bytes (x :: r) (bs "now") = false.
Proof. intros H. apply beq_bytes_false. intros E. injection E as -> ->. discriminate. Qed.

Lemma dec_head_digit n : exists x r, dec n = x :: r /\ is_digit x = true.
Proof.
  pose proof (dec_nonempty n). pose proof (dec_digits n) as D. destruct (dec n) as [|x r]; [easy|].
  exists x, r. cbn in D. apply andb_true_iff in D. easy.
Qed.

Lemma gen_interval compat tzd pretty ref times l s :
  (seps tzd < 5)%nat -> l <> [] -> interval_sum interval_unit l = Some s ->
  pretty (interval_str l) = None ->
  genstrtotime compat tzd pretty ref times (interval_str l) = Some (ref - s).
Proof.
  intros Ht Hne Hs Hp. unfold genstrtotime.
  assert (E1 : beq_bytes (interval_str l) (bs "now") = false).
  { destruct l as [|[n c] l]; [easy|]. unfold interval_str. cbn [flat_map fst snd].
    destruct (dec_head_digit n) as (x & r & E & Hx). rewrite E. cbn [app]. now apply now_no_digit. }
  rewrite E1.
  destruct (interval_last l s Hne Hs) as (p & c & u & E & Hu).
  assert (E2 : all_digits (interval_str l) = false).
  { rewrite E. apply all_digits_app_last. now apply (interval_unit_not_digit c u). }
  rewrite E2.
  pose proof (seps_interval l s Hs) as S0.
  rewrite !stringtotime_few_seps by (rewrite ?seps_app; lia). cbn [or_zero].
  assert (E3 : session_num (interval_str l) = None).
  { unfold session_num. rewrite E, rev_app_distr. cbn [rev app].
    now rewrite (interval_unit_not_B c u Hu). }
  rewrite E3, Hp, (interval_spec l s Hne Hs). easy.
Qed.

Lemma gen_session compat tzd pretty ref times n :
  (seps tzd < 5)%nat ->
  genstrtotime compat tzd pretty ref times (dec n ++ bs "B")
  = time_from_session (N.to_nat n) times.
Proof.
  intros Ht. unfold genstrtotime.
  destruct (dec_head_digit n) as (x & r & E & Hx).
  assert (E1 : beq_bytes (dec n ++ bs "B") (bs "now") = false)
    by (rewrite E; now apply now_no_digit).
  rewrite E1. change (bs "B") with [chr 66].
  rewrite (all_digits_app_last (dec n) (chr 66)) by reflexivity.
  assert (S0 : seps (dec n ++ [chr 66]) = 0%nat)
    by (rewrite seps_app, seps_digits by apply dec_digits; reflexivity).
  rewrite !stringtotime_few_seps
    by first [rewrite S0; lia | rewrite (seps_app (dec n ++ [chr 66])), S0; lia]. cbn [or_zero].
  assert (E3 : session_num (dec n ++ [chr 66]) = Some n).
  { unfold session_num. rewrite rev_app_distr. cbn [rev app].
    rewrite Ascii.eqb_refl, rev_involutive. unfold all_digits.
    rewrite E. cbn [andb]. rewrite <- E, dec_digits, dval_dec. easy. }
  now rewrite E3.
Qed.

Lemma gen_epoch compat tzd pretty ref times n :
  genstrtotime compat tzd pretty ref times (dec n) = Some (Z.of_N n).
Proof.
  unfold genstrtotime. destruct (dec_head_digit n) as (x & r & E & Hx).
  rewrite E, now_no_digit by easy. rewrite <- E.
  unfold all_digits. rewrite E. cbn [andb]. rewrite <- E, dec_digits, dval_dec. easy.
Qed.

Lemma gen_timestamp compat tzd pretty ref times compat' off t :
  zone_ok off -> (0 <= off \/ off mod 3600 = 0) -> 1900 < year_of (t + off) < 2100 -> t <> 0 ->
  genstrtotime compat tzd pretty ref times (timetostring compat' off t) = Some t.
Proof.
  intros Hz Ho Hy H0. unfold genstrtotime.
  assert (L : In (chr 45) (timetostring compat' off t)).
  { unfold timetostring. destruct (gmtime (t + off)) as [[[[[y mo] d] h] mi] s].
    apply in_or_app. right. now left. }
  destruct (beq_bytes (timetostring compat' off t) (bs "now")) eqn:E1.
  { apply beq_bytes_true in E1. rewrite E1 in L. vm_compute in L.
    decompose [or] L; try discriminate; easy. }
  destruct (all_digits (timetostring compat' off t)) eqn:E2.
  { exfalso. unfold all_digits in E2. destruct (timetostring compat' off t) eqn:E; [easy|].
    rewrite forallb_forall in E2. specialize (E2 _ L). discriminate. }
  rewrite (stringtotime_timetostring compat' off t Hz Ho Hy).
  unfold or_zero. destruct t; [easy| |]; reflexivity.
Qed.
