(* P_IncName.v -- C08: increment file names. *)
From Verif Require Import Base L_Base M_Time L_Time M_IncName L_IncName.

(* C08: whatever the base name (any bytes, dots included), an increment's name
   tells exactly its compression, time, type and base.  Zone restriction as in
   C07. *)
Theorem C08_increment_name_roundtrip :
  forall (base : bytes) compat off t ty gz,
    (off mod 60 = 0)%Z -> (-360000 < off < 360000)%Z ->
    (0 <= off \/ off mod 3600 = 0)%Z -> (1900 < year_of (t + off) < 2100)%Z ->
    In ty [bs "snapshot"; bs "dir"; bs "missing"; bs "diff"; bs "data"] ->
    parse_increment_name
      (increment_name base (timetostring compat off t) (typestr ty gz))
    = Some (gz, timetostring compat off t, t, ty, base).
Proof.
  exact (fun base compat off t ty gz H60 Hb Ho Hy Hty =>
    parse_increment_name_spec base (timetostring compat off t) ty gz t
      (timetostring_bytes compat off t)
      (stringtotime_timetostring compat off t (conj H60 Hb) Ho Hy) Hty).
Qed.
Print Assumptions C08_increment_name_roundtrip.

(* C08: two increments with the same file name are the same increment (same
   base, label, type, compression), in all zones. *)
Theorem C08_increment_name_injective :
  forall b1 l1 t1 g1 b2 l2 t2 g2 x1 x2,
    forallb label_byte l1 = true -> stringtotime l1 = Some x1 -> In t1 inc_types ->
    forallb label_byte l2 = true -> stringtotime l2 = Some x2 -> In t2 inc_types ->
    increment_name b1 l1 (typestr t1 g1) = increment_name b2 l2 (typestr t2 g2) ->
    b1 = b2 /\ l1 = l2 /\ t1 = t2 /\ g1 = g2.
Proof. exact increment_name_inj. Qed.
Print Assumptions C08_increment_name_injective.

(* C08: listing the increments of a file returns exactly the directory entries
   which parse as an increment of this very file, within the time bounds. *)
Theorem C08_listing_exact :
  forall base begin end_ names n t,
    In (n, t) (incfiles_list base begin end_ names) <->
    In n names /\ starts_with base n = true /\
    (exists c ts ty, parse_increment_name n = Some (c, ts, t, ty, base)) /\
    match begin with None => True | Some x => (x <= t)%Z end /\
    match end_ with None => True | Some x => (t <= x)%Z end.
Proof. exact incfiles_list_in. Qed.
Print Assumptions C08_listing_exact.

(* C08 fails for the directories inside the increments directory: the (plain)
   directory holding the increments of a source directory called
   x.2098-01-01T00:00:00Z.dir is taken for an increment of the file x. *)
Theorem C08_increment_directory_refuted :
  exists name, inc_entry name true = Some (bs "x", true)
    /\ exists c ts ty, parse_increment_name name = Some (c, ts, 4039372800%Z, ty, bs "x").
Proof.
  exact (ex_intro _ (bs "x.2098-01-01T00:00:00Z.dir")
    (conj eq_refl (ex_intro _ _ (ex_intro _ _ (ex_intro _ _ eq_refl))))).
Qed.
Print Assumptions C08_increment_directory_refuted.

Example C08_example :
  increment_name (bs "a.b.gz") (timetostring false 3600 1000000000) (typestr (bs "diff") true)
  = bs "a.b.gz.2001-09-09T02:46:40+01:00.diff.gz"
  /\ parse_increment_name (bs "a.b.gz.2001-09-09T02:46:40+01:00.diff.gz")
     = Some (true, bs "2001-09-09T02:46:40+01:00", 1000000000%Z, bs "diff", bs "a.b.gz")
  /\ (1900 < year_of (1000000000 + 3600) < 2100)%Z
  /\ parse_increment_name (bs "2001-09-09T02:46:40+01:00.diff") = None
  /\ parse_increment_name (bs "a.2001-09-09T02:46:40+01:00.txt") = None
  /\ incfiles_list (bs "a") None (Some 5000000000%Z)
       [bs "a.2001-09-09T02:46:40+01:00.diff"; bs "ab.2001-09-09T02:46:40+01:00.diff"; bs "a.b"]
     = [(bs "a.2001-09-09T02:46:40+01:00.diff", 1000000000%Z)].
Proof. repeat split; vm_compute; reflexivity. Qed.
