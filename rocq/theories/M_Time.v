(* M_Time.v -- model of /repo/src/rdiff_backup/Time.py.
   Times are integers (seconds since the epoch); the code's times are integers
   too, except "now" which is truncated by localtime().  *)
From Verif Require Import Base.
Local Open Scope Z_scope.

(* ---- proleptic Gregorian calendar (C library / Python datetime, not /repo).
   Used by time.localtime (ord2ymd) and calendar.timegm (toordinal). -------- *)
Definition is_leap (y : Z) : bool :=
  (y mod 4 =? 0) && (negb (y mod 100 =? 0) || (y mod 400 =? 0)).
Definition days_before_year (year : Z) : Z :=
  let y := year - 1 in y * 365 + y / 4 - y / 100 + y / 400.
Definition dbm_table : list Z := [0; 0; 31; 59; 90; 120; 151; 181; 212; 243; 273; 304; 334].
Definition days_before_month (y m : Z) : Z :=
  nth (Z.to_nat m) dbm_table 0 + (if (2 <? m) && is_leap y then 1 else 0).
(* datetime.date(y, m, 1).toordinal() + d - 1 *)
Definition toordinal (y m d : Z) : Z := days_before_year y + days_before_month y m + d.

(* datetime._ord2ymd: year, month, day of an ordinal *)
Definition days_in_month (y m : Z) : Z :=
  if (m =? 2) && is_leap y then 29
  else nth (Z.to_nat m) [0; 31; 28; 31; 30; 31; 30; 31; 31; 30; 31; 30; 31] 0.
Definition ord2ymd (ordinal : Z) : Z * Z * Z :=
  let n := ordinal - 1 in
  let n400 := n / 146097 in let n := n mod 146097 in
  let year := n400 * 400 + 1 in
  let n100 := n / 36524 in let n := n mod 36524 in
  let n4 := n / 1461 in let n := n mod 1461 in
  let n1 := n / 365 in let n := n mod 365 in
  let year := year + n100 * 100 + n4 * 4 + n1 in
  if (n1 =? 4) || (n100 =? 4) then (year - 1, 12, 31)
  else
    let month := (n + 50) / 32 in
    let preceding := days_before_month year month in
    if n <? preceding then
      let month' := month - 1 in
      (year, month', n - (preceding - days_in_month year month') + 1)
    else (year, month, n - preceding + 1).

Definition EPOCH_ORD : Z := 719163.

(* calendar.timegm((y, mo, d, h, mi, s, ...)) *)
Definition timegm (y mo d h mi s : Z) : Z :=
  (((toordinal y mo d - EPOCH_ORD) * 24 + h) * 60 + mi) * 60 + s.

(* fields of a number of seconds: time.gmtime *)
Definition gmtime (t : Z) : Z * Z * Z * Z * Z * Z :=
  let days := t / 86400 in let sec := t mod 86400 in
  let '(y, mo, d) := ord2ymd (days + EPOCH_ORD) in
  (y, mo, d, sec / 3600, sec mod 3600 / 60, sec mod 60).

(* ---- Time.py proper ---------------------------------------------------- *)

(* two-digit and four-digit fields of strftime *)
Definition d2 (z : Z) : bytes := dec_pad 2 (Z.to_N z).
Definition d4 (z : Z) : bytes := dec_pad 4 (Z.to_N z).

(* the separator: TIMEDATE_FORMAT_STRING / TIMEDATE_FORMAT_COMPAT,
   Time.py:45-46, and time_separator, Time.py:278-281 *)
Definition tsep (compat : bool) : ascii := if compat then chr 45 else chr 58.

(* _get_tzd: Time.py:266-285.  [off] is the UTC offset (seconds east) which
   strftime("%z") reports for the instant, as sign, hours and minutes. *)
Definition get_tzd (compat : bool) (off : Z) : bytes :=
  let a := Z.abs off in
  let sign := if off <? 0 then chr 45 else chr 43 in
  let hh := d2 (a / 3600) in
  let mm := d2 (a mod 3600 / 60) in
  if beq_bytes (sign :: hh ++ mm) (bs "+0000") then bs "Z"
  else (sign :: hh) ++ tsep compat :: mm.

(* timetostring: Time.py:75-85.  localtime(t) has the fields of t + off. *)
Definition timetostring (compat : bool) (off t : Z) : bytes :=
  let '(y, mo, d, h, mi, s) := gmtime (t + off) in
  d4 y ++ chr 45 :: d2 mo ++ chr 45 :: d2 d ++ chr 84 :: d2 h
    ++ tsep compat :: d2 mi ++ tsep compat :: d2 s ++ get_tzd compat off.

(* TIMEDATE_FORMAT_REGEXP.split, Time.py:49: separators T : - *)
Definition is_tsep (c : ascii) : bool :=
  Ascii.eqb c (chr 84) || Ascii.eqb c (chr 58) || Ascii.eqb c (chr 45).
Fixpoint tsplit (s : bytes) : list bytes :=
  match s with
  | [] => [[]]
  | c :: r =>
      if is_tsep c then [] :: tsplit r
      else match tsplit r with
           | [] => [[c]]
           | f :: fs => (c :: f) :: fs
           end
  end.

(* _tzd_to_seconds: Time.py:288-303; None = ValueError *)
Definition tzd_to_seconds (tzd : bytes) : option Z :=
  if beq_bytes tzd (bs "Z") then Some 0
  else match tzd with
       | [s; h1; h2; c; m1; m2] =>
           if (Ascii.eqb s (chr 45) || Ascii.eqb s (chr 43))
              && (Ascii.eqb c (chr 58) || Ascii.eqb c (chr 45))
           then match parse_Z [s; h1; h2], parse_Z [m1; m2] with
                | Some h, Some m => Some (-60 * (60 * h + m))
                | _, _ => None
                end
           else None
       | _ => None
       end.

(* stringtotime: Time.py:92-121.  int() of a field is modelled by parse_Z
   (optional sign and digits; surrounding blanks and underscores, which int()
   also accepts, are treated as errors). *)
Definition stringtotime (s : bytes) : option Z :=
  match map parse_Z (tsplit (firstn 19 s)) with
  | [Some y; Some mo; Some d; Some h; Some mi; Some se] =>
      if (1900 <? y) && (y <? 2100) && (1 <=? mo) && (mo <=? 12) && (1 <=? d) && (d <=? 31)
         && (0 <=? h) && (h <=? 23) && (0 <=? mi) && (mi <=? 59) && (0 <=? se) && (se <=? 61)
      then match tzd_to_seconds (skipn 19 s) with
           | Some z => Some (timegm y mo d h mi se + z)
           | None => None
           end
      else None
  | _ => None
  end.

(* _interval_conv_dict: Time.py:26-34 *)
Definition interval_unit (c : ascii) : option Z :=
  if Ascii.eqb c (chr 115) then Some 1
  else if Ascii.eqb c (chr 109) then Some 60
  else if Ascii.eqb c (chr 104) then Some 3600
  else if Ascii.eqb c (chr 68) then Some 86400
  else if Ascii.eqb c (chr 87) then Some (7 * 86400)
  else if Ascii.eqb c (chr 77) then Some (30 * 86400)
  else if Ascii.eqb c (chr 89) then Some (365 * 86400)
  else None.

(* the longest prefix of digits, and the rest *)
Fixpoint span_digits (s : bytes) : bytes * bytes :=
  match s with
  | [] => ([], [])
  | c :: r => if is_digit c then let '(a, b) := span_digits r in (c :: a, b) else ([], s)
  end.

(* the while loop of _intervalstr_to_seconds: Time.py:253-263; every turn
   consumes at least two bytes, so the length of the string is enough fuel.
   None = TimeException *)
Fixpoint interval_loop (fuel : nat) (s : bytes) (total : Z) : option Z :=
  match s with
  | [] => Some total
  | _ =>
      match fuel with
      | O => None
      | S f =>
          let '(num, rest) := span_digits s in
          match num, rest with
          | _ :: _, c :: rest' =>
              match interval_unit c with
              | Some u => interval_loop f rest' (total + Z.of_N (dval num) * u)
              | None => None
              end
          | _, _ => None
          end
      end
  end.
(* _intervalstr_to_seconds: Time.py:237-263 *)
Definition intervalstr_to_seconds (s : bytes) : option Z :=
  if (List.length s <? 2)%nat then None else interval_loop (List.length s) s 0.

(* _time_from_session: Time.py:306-317; [times] is sorted, oldest first.  The
   code raises IndexError when there is no session at all. *)
Definition time_from_session (n : nat) (times : list Z) : option Z :=
  if (List.length times <=? n)%nat then hd_error times
  else nth_error times (List.length times - n - 1).

(* _integer_regexp / _session_regexp: Time.py:35-36 (for strings without a
   newline) *)
Definition all_digits (s : bytes) : bool :=
  match s with [] => false | _ => forallb is_digit s end.
Definition session_num (s : bytes) : option N :=
  match rev s with
  | c :: r => if Ascii.eqb c (chr 66) && all_digits (rev r) then Some (dval (rev r)) else None
  | [] => None
  end.

(* _genstr_date_regexp1/2: Time.py:38-43 *)
Definition split_date (s : bytes) : list bytes :=
  (fix go (s : bytes) : list bytes :=
     match s with
     | [] => [[]]
     | c :: r =>
         if Ascii.eqb c (chr 45) || Ascii.eqb c (chr 47) then [] :: go r
         else match go r with [] => [[c]] | f :: fs => (c :: f) :: fs end
     end) s.
Definition is_year (f : bytes) : bool := (List.length f =? 4)%nat && forallb is_digit f.
Definition is_md (f : bytes) : bool :=
  ((List.length f =? 1)%nat || (List.length f =? 2)%nat) && forallb is_digit f.
Definition parse_date (s : bytes) : option (bytes * N * N) :=
  match split_date s with
  | [a; b; c] =>
      if is_year a && is_md b && is_md c then Some (a, dval b, dval c)
      else if is_md a && is_md b && is_year c then Some (c, dval a, dval b)
      else None
  | _ => None
  end.

(* genstrtotime: Time.py:175-234.  [tzd_now] is _get_tzd() (the zone string of
   the present moment), [pretty] is time.mktime(time.strptime(s)) or None
   (prettytotime, Time.py:138-145), both external.  `t or u` treats 0 as
   missing, as in the code.  None = TimeException (or IndexError when "nB" is
   used without any session). *)
Definition or_zero (a b : option Z) : option Z :=
  match a with Some 0 | None => b | Some x => Some x end.
Definition genstrtotime (compat : bool) (tzd_now : bytes) (pretty : bytes -> option Z)
           (ref_time : Z) (times : list Z) (s : bytes) : option Z :=
  if beq_bytes s (bs "now") then Some ref_time
  else if all_digits s then Some (Z.of_N (dval s))
  else match or_zero (stringtotime s) (or_zero (stringtotime (s ++ tzd_now)) None) with
  | Some t => Some t
  | None =>
      match session_num s with
      | Some n => time_from_session (N.to_nat n) times
      | None =>
          match pretty s with
          | Some t => Some t
          | None =>
              match intervalstr_to_seconds s with
              | Some i => Some (ref_time - i)
              | None =>
                  match parse_date s with
                  | Some (y, m, d) =>
                      stringtotime (y ++ chr 45 :: dec_pad 2 m ++ chr 45 :: dec_pad 2 d
                                      ++ bs "T00:00:00" ++ tzd_now)
                  | None => None
                  end
              end
          end
      end
  end.

(* inttopretty for an integer: Time.py:148-172 *)
Definition inttopretty (seconds : Z) : bytes :=
  let h := seconds / 3600 in
  let r := seconds mod 3600 in
  let l1 := if 1 <? h then [dec_Z h ++ bs " hours"]
            else if h =? 1 then [bs "1 hour"] else [] in
  let m := r / 60 in
  let s := r mod 60 in
  let l2 := l1 ++ (if 1 <? m then [dec_Z m ++ bs " minutes"]
                   else if m =? 1 then [bs "1 minute"] else []) in
  let l3 := if s =? 1 then l2 ++ [bs "1 second"]
            else match l2 with
                 | [] => [dec_Z s ++ bs " seconds"]
                 | _ => if 1 <? s then l2 ++ [dec_Z s ++ bs " seconds"] else l2
                 end in
  join_with [chr 32] l3.
