(* P_Time.v -- C07 (timestamps) and C33 (time specifications). *)
From Verif Require Import Base L_Base M_Time L_Time L_TimeDate.
Local Open Scope Z_scope.

(* C07.  A session time [t], written in a zone [off] seconds east of UTC (whole
   minutes), with or without compatible timestamps, reads back as [t] --
   provided the zone is not west of UTC by a fraction of an hour.  The year
   restriction is the one the reader enforces. *)
Theorem C07_timestamp_roundtrip :
  forall compat off t,
    off mod 60 = 0 -> -360000 < off < 360000 ->
    (0 <= off \/ off mod 3600 = 0) ->
    1900 < year_of (t + off) < 2100 ->
    stringtotime (timetostring compat off t) = Some t.
Proof.
  exact (fun compat off t H60 Hb Ho Hy =>
           stringtotime_timetostring compat off t (conj H60 Hb) Ho Hy).
Qed.
Print Assumptions C07_timestamp_roundtrip.

(* C07 is false of the code in zones west of UTC by a fraction of an hour
   (Newfoundland -03:30, Marquesas -09:30): 2024-01-01T00:00:00-03:30 is read
   back one hour too early. *)
Theorem C07_timestamp_roundtrip_refuted :
  exists off t,
    off mod 60 = 0 /\ -86400 < off < 86400 /\ 1900 < year_of (t + off) < 2100
    /\ stringtotime (timetostring false off t) <> Some t
    /\ stringtotime (timetostring false off t) = Some (t - 3600).
Proof.
  exists (-12600), 1704079800. repeat split; try (vm_compute; reflexivity).
  vm_compute. discriminate.
Qed.
Print Assumptions C07_timestamp_roundtrip_refuted.

(* C07: the exact error, for every zone west of UTC: twice the minutes part. *)
Theorem C07_timestamp_west_zone_error :
  forall compat off t,
    off mod 60 = 0 -> -360000 < off < 0 ->
    1900 < year_of (t + off) < 2100 ->
    stringtotime (timetostring compat off t) = Some (t - 2 * (- off mod 3600)).
Proof.
  intros compat off t H60 [Hl Hu] Hy.
  refine (stringtotime_negative_zone compat off t (conj H60 (conj Hl _)) Hu Hy).
  exact (Z.lt_trans _ _ _ Hu (eq_refl : 0 < 360000)).
Qed.
Print Assumptions C07_timestamp_west_zone_error.

(* C07: a written timestamp consists of digits and of - : + T Z only; in
   particular it contains no dot, slash or newline, so that it can be a field
   of a file name. *)
Theorem C07_timestamp_alphabet :
  forall compat off t c, In c (timetostring compat off t) ->
    is_digit c = true \/ In c (bs "-:+TZ").
Proof.
  intros compat off t c H.
  pose proof (proj1 (forallb_forall _ _) (timetostring_bytes compat off t) c H) as G.
  unfold label_byte in G. apply orb_true_iff in G.
  exact (match G with
         | or_introl G1 => or_introl G1
         | or_intror G2 => or_intror (proj1 (mem_byte_In _ _) G2)
         end).
Qed.
Print Assumptions C07_timestamp_alphabet.

(* the calendar used by the model is the Gregorian one at some known dates, and
   the hypotheses of the theorems above are met *)
Example C07_example :
  timetostring false 19800 951830400 = bs "2000-02-29T18:50:00+05:30"
  /\ timetostring true (-28800) 951830400 = bs "2000-02-29T05-20-00-08-00"
  /\ timetostring false 0 0 = bs "1970-01-01T00:00:00Z"
  /\ 1900 < year_of (951830400 + 19800) < 2100
  /\ stringtotime (bs "2000-02-29T18:50:00+05:30") = Some 951830400
  /\ stringtotime (bs "2000-02-30") = None
  /\ stringtotime (bs "2200-02-20T18:50:00Z") = None.
Proof. repeat split; vm_compute; reflexivity. Qed.

(* C33: an interval such as 3D64s denotes the sum of its parts, s=1, m=60,
   h=3600, D=86400, W=7D, M=30D, Y=365D. *)
Definition unit_seconds (c : ascii) : option Z :=
  if Ascii.eqb c "s"%char then Some 1 else
  if Ascii.eqb c "m"%char then Some 60 else
  if Ascii.eqb c "h"%char then Some 3600 else
  if Ascii.eqb c "D"%char then Some 86400 else
  if Ascii.eqb c "W"%char then Some 604800 else
  if Ascii.eqb c "M"%char then Some 2592000 else
  if Ascii.eqb c "Y"%char then Some 31536000 else None.

Theorem C33_interval_is_sum :
  forall (l : list (N * ascii)) s,
    l <> [] -> interval_sum unit_seconds l = Some s ->
    intervalstr_to_seconds (interval_str l) = Some s.
Proof. exact interval_spec. Qed.
Print Assumptions C33_interval_is_sum.

(* C33: nothing else is accepted as an interval: an accepted string is a
   sequence of (digits, unit letter) and its value is their sum. *)
Theorem C33_interval_only_sums :
  forall s r,
    intervalstr_to_seconds s = Some r ->
    exists l : list (bytes * ascii),
      s = flat_map (fun p => fst p ++ [snd p]) l
      /\ Forall (fun p => fst p <> [] /\ forallb is_digit (fst p) = true
                          /\ unit_seconds (snd p) <> None) l
      /\ interval_sum unit_seconds (map (fun p => (dval (fst p), snd p)) l) = Some r.
Proof. exact intervalstr_sound. Qed.
Print Assumptions C33_interval_only_sums.

(* C33: nB is the n-th session counted back from the newest, 0B the newest, and
   the oldest session when there are not that many. *)
Theorem C33_session_count :
  forall (times : list Z) n, (n < List.length times)%nat ->
    time_from_session n times = nth_error (rev times) n.
Proof. exact time_from_session_spec. Qed.
Print Assumptions C33_session_count.

Theorem C33_session_count_too_many :
  forall (times : list Z) n, (List.length times <= n)%nat ->
    time_from_session n times = hd_error times.
Proof. exact time_from_session_oldest. Qed.
Print Assumptions C33_session_count_too_many.

(* C33: the whole resolution of a time specification.  [tzd] is the string of
   the current zone (at most a few separators: two in a zone such as +05-30),
   [pretty] the parser of ctime-like dates of the C library. *)
Theorem C33_now :
  forall compat tzd pretty ref times,
    genstrtotime compat tzd pretty ref times (bs "now") = Some ref.
Proof. exact (fun _ _ _ _ _ => eq_refl). Qed.
Print Assumptions C33_now.

Theorem C33_epoch_seconds :
  forall compat tzd pretty ref times n,
    genstrtotime compat tzd pretty ref times (dec n) = Some (Z.of_N n).
Proof. exact gen_epoch. Qed.
Print Assumptions C33_epoch_seconds.

Theorem C33_interval_before_reference :
  forall compat tzd pretty ref times l s,
    (List.length (filter is_tsep tzd) < 5)%nat ->
    l <> [] -> interval_sum unit_seconds l = Some s ->
    pretty (interval_str l) = None ->
    genstrtotime compat tzd pretty ref times (interval_str l) = Some (ref - s).
Proof. exact gen_interval. Qed.
Print Assumptions C33_interval_before_reference.

Theorem C33_session_specification :
  forall compat tzd pretty ref times n,
    (List.length (filter is_tsep tzd) < 5)%nat ->
    genstrtotime compat tzd pretty ref times (dec n ++ bs "B")
    = time_from_session (N.to_nat n) times.
Proof. exact gen_session. Qed.
Print Assumptions C33_session_specification.

(* C33: a timestamp as printed by the program resolves to its time, except the
   very second 0 (1970-01-01T00:00:00Z), which the code takes for "no match". *)
Theorem C33_timestamp :
  forall compat tzd pretty ref times compat' off t,
    off mod 60 = 0 -> -360000 < off < 360000 ->
    (0 <= off \/ off mod 3600 = 0) -> 1900 < year_of (t + off) < 2100 -> t <> 0 ->
    genstrtotime compat tzd pretty ref times (timetostring compat' off t) = Some t.
Proof.
  exact (fun compat tzd pretty ref times compat' off t H60 Hb =>
    gen_timestamp compat tzd pretty ref times compat' off t (conj H60 Hb)).
Qed.
Print Assumptions C33_timestamp.

Theorem C33_timestamp_epoch_refuted :
  genstrtotime false (bs "Z") (fun _ => None) 1000 [] (timetostring false 0 0) = None.
Proof. exact eq_refl. Qed.
Print Assumptions C33_timestamp_epoch_refuted.

(* C33: a date, year first or month first, with - or / between its parts and
   one or two digits for month and day, is midnight of that day in the current
   zone (as far as the zone can be read back at all, see C07). *)
Definition date_separator (c : ascii) : Prop := c = "-"%char \/ c = "/"%char.
Definition one_or_two_digits (n : Z) (f : bytes) : Prop :=
  forallb is_digit f = true /\ (List.length f = 1 \/ List.length f = 2)%nat
  /\ parse_Z f = Some n.

Theorem C33_date :
  forall compat pretty ref times off t y mo d s1 s2 fm fd,
    off mod 60 = 0 -> -360000 < off < 360000 -> (0 <= off \/ off mod 3600 = 0) ->
    1900 < y < 2100 ->
    gmtime (t + off) = (y, mo, d, 0, 0, 0) ->
    date_separator s1 -> date_separator s2 ->
    one_or_two_digits mo fm -> one_or_two_digits d fd ->
    forall s, s = d4 y ++ [s1] ++ fm ++ [s2] ++ fd \/ s = fm ++ [s1] ++ fd ++ [s2] ++ d4 y ->
      pretty s = None ->
      genstrtotime compat (get_tzd compat off) pretty ref times s = Some t.
Proof.
  intros compat pretty ref times off t y mo d s1 s2 fm fd H60 Hb Ho Hy G H1 H2 Hm Hd s Hs Hp.
  assert (D : forall c, date_separator c -> dsep c = true) by (intros c [-> | ->]; reflexivity).
  assert (M : forall n f, one_or_two_digits n f -> md_str n f).
  { intros n f (A & B & C). split; [exact A|]. split; [exact B|].
    rewrite parse_Z_digits in C; [|exact A|].
    - injection C as <-. symmetry. apply N2Z.id.
    - intros ->. cbn in B. destruct B; discriminate. }
  destruct (gen_date compat pretty ref times off t y mo d s1 s2 fm fd (conj H60 Hb) Ho Hy G
              (D _ H1) (D _ H2) (M _ _ Hm) (M _ _ Hd)) as [A B].
  destruct Hs as [-> | ->]; [apply A|apply B]; exact Hp.
Qed.
Print Assumptions C33_date.

Example C33_date_example :
  gmtime (951760800 + 21600) = (2000, 2, 29, 0, 0, 0)
  /\ one_or_two_digits 2 (bs "2") /\ one_or_two_digits 29 (bs "29") /\ one_or_two_digits 2 (bs "02")
  /\ genstrtotime true (get_tzd true 21600) (fun _ => None) 7 [] (bs "02/29-2000") = Some 951760800.
Proof. repeat split; try (vm_compute; reflexivity); try (left; reflexivity); right; reflexivity. Qed.

(* C33: what is accepted is one of the documented forms, so everything else is
   refused: the word now, a number, a timestamp with or without zone, nB, a date
   the C library knows, a sequence of intervals, or a date. *)
Theorem C33_nothing_else :
  forall compat tzd pretty ref times s r,
    genstrtotime compat tzd pretty ref times s = Some r ->
    s = bs "now"
    \/ forallb is_digit s = true
    \/ stringtotime s = Some r \/ stringtotime (s ++ tzd) = Some r
    \/ (exists n, s = n ++ bs "B" /\ forallb is_digit n = true)
    \/ pretty s = Some r
    \/ (exists l : list (bytes * ascii),
          s = flat_map (fun p => fst p ++ [snd p]) l
          /\ Forall (fun p => fst p <> [] /\ forallb is_digit (fst p) = true
                              /\ unit_seconds (snd p) <> None) l
          /\ interval_sum unit_seconds (map (fun p => (dval (fst p), snd p)) l) = Some (ref - r))
    \/ (exists y m d, parse_date s = Some (y, m, d)).
Proof.
  intros compat tzd pretty ref times s r. unfold genstrtotime.
  destruct (beq_bytes s (bs "now")) eqn:E1; [intros _; left; now apply beq_bytes_true|].
  destruct (all_digits s) eqn:E2.
  { intros _. right; left. unfold all_digits in E2. destruct s; [discriminate|exact E2]. }
  destruct (or_zero (stringtotime s) (or_zero (stringtotime (s ++ tzd)) None)) as [t|] eqn:E3.
  { intros H. injection H as <-. right; right.
    destruct (stringtotime s) as [[|x|x]|]; cbn [or_zero] in E3;
      try (injection E3 as <-; now left);
      right; left; destruct (stringtotime (s ++ tzd)) as [[|x'|x']|]; cbn [or_zero] in E3; congruence. }
  destruct (session_num s) as [n|] eqn:E4.
  { intros _. do 4 right. left. unfold session_num in E4.
    destruct (rev s) as [|c r'] eqn:Er; [discriminate|].
    destruct (Ascii.eqb_spec c (chr 66)) as [->|]; [|discriminate]. cbn [andb] in E4.
    destruct (all_digits (rev r')) eqn:Ed; [|discriminate].
    exists (rev r'). split.
    - rewrite <- (rev_involutive s), Er. reflexivity.
    - unfold all_digits in Ed. destruct (rev r'); [reflexivity|exact Ed]. }
  destruct (pretty s) as [t|] eqn:E5.
  { intros H. injection H as <-. do 5 right. now left. }
  destruct (intervalstr_to_seconds s) as [i|] eqn:E6.
  { intros H. injection H as <-. do 6 right. left.
    destruct (C33_interval_only_sums s i E6) as (l & A & B & C).
    exists l. repeat split; try assumption. rewrite C. f_equal. ring. }
  destruct (parse_date s) as [[[y m] d]|] eqn:E7; [|discriminate].
  intros _. do 7 right. now exists y, m, d.
Qed.
Print Assumptions C33_nothing_else.

(* C33: a duration printed in words (statistics, "inttopretty") adds up to the
   number of seconds. *)
Theorem C33_duration_in_words :
  forall seconds, 0 <= seconds ->
    words_sum (split_on " "%char (inttopretty seconds)) = Some seconds.
Proof. exact inttopretty_sum. Qed.
Print Assumptions C33_duration_in_words.

Example C33_duration_example : inttopretty 3725 = bs "1 hour 2 minutes 5 seconds"
  /\ inttopretty 0 = bs "0 seconds".
Proof. split; vm_compute; reflexivity. Qed.

Example C33_example :
  (List.length (filter is_tsep (get_tzd true (-12600))) < 5)%nat /\
  intervalstr_to_seconds (bs "3D64s") = Some 259264
  /\ interval_sum unit_seconds [(3%N, "D"%char); (64%N, "s"%char)] = Some 259264
  /\ time_from_session 1 [10; 20; 30] = Some 20
  /\ time_from_session 7 [10; 20; 30] = Some 10
  /\ genstrtotime false (bs "Z") (fun _ => None) 1000000 [] (bs "1h") = Some 996400
  /\ genstrtotime false (bs "Z") (fun _ => None) 1000000 [] (bs "2/29/2000") = Some 951782400
  /\ genstrtotime false (bs "Z") (fun _ => None) 1000000 [5; 6] (bs "0B") = Some 6
  /\ genstrtotime false (bs "Z") (fun _ => None) 1000000 [5; 6] (bs "x") = None.
Proof. split; [vm_compute; repeat constructor|]. repeat split; vm_compute; reflexivity. Qed.
