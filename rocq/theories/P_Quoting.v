(* P_Quoting.v -- C09 and C10: file-name quoting. *)
From Verif Require Import Base L_Base M_Quoting L_Quoting.

(* C09: unquoting a quoted path gives back the path, for every byte string. *)
Theorem C09_path_quoting_roundtrip : forall p : bytes, unquote_path (quote_path p) = p.
Proof. exact unquote_quote_path. Qed.
Print Assumptions C09_path_quoting_roundtrip.

(* C09: a quoted path fits on one line. *)
Theorem C09_quoted_path_on_one_line : forall p : bytes, ~ In (chr 10) (quote_path p).
Proof. exact quote_path_no_nl. Qed.
Print Assumptions C09_quoted_path_on_one_line.

(* C09: different paths stay different. *)
Theorem C09_path_quoting_injective : forall p q : bytes, quote_path p = quote_path q -> p = q.
Proof. exact quote_path_inj. Qed.
Print Assumptions C09_path_quoting_injective.

(* C09: ordinary paths are stored as they are. *)
Theorem C09_ordinary_path_unchanged :
  forall p : bytes, ~ In (chr 10) p -> ~ In (chr 92) p -> quote_path p = p.
Proof. exact quote_path_id. Qed.
Print Assumptions C09_ordinary_path_unchanged.

Example C09_example :
  quote_path (bs "a\n" ++ [nl] ++ bs "\") = bs "a\\n\n\\"
  /\ unquote_path (bs "a\\n\n\\") = bs "a\n" ++ [nl] ++ bs "\"
  /\ unquote_path (bs "a\x") = bs "a\x".
Proof. repeat split; vm_compute; reflexivity. Qed.

(* C10: for every set of characters to quote consisting of ASCII bytes, and for
   both special escapes on or off, unquoting gives back the name.  [cls] is the
   set of characters to quote; the hypothesis is only about bytes which occur
   in the name. *)
Theorem C10_fs_quoting_roundtrip :
  forall (cls : ascii -> bool) (edd ets : bool) (name : bytes),
    (forall c, In c name -> cls c = true -> (N_of_ascii c < 128)%N) ->
    fs_unquote (fs_quote cls edd ets name) = name.
Proof. exact fs_roundtrip. Qed.
Print Assumptions C10_fs_quoting_roundtrip.

(* C10, as used by the program: with the set computed from the abilities of the
   file systems, provided the destination is not one without extended file
   names. *)
Theorem C10_fs_quoting_roundtrip_detected :
  forall src_cs dest_cs dest_ext dest_win cls edd ets (name : bytes),
    dest_ext <> Some false ->
    ctq_from_fsas src_cs dest_cs dest_ext dest_win = Some cls ->
    fs_unquote (fs_quote cls edd ets name) = name.
Proof.
  exact (fun a b e w cls edd ets name He H =>
           fs_roundtrip cls edd ets name
             (fun c _ Hc => ctq_ascii a b e w cls c H He Hc)).
Qed.
Print Assumptions C10_fs_quoting_roundtrip_detected.

(* C10 is false of the code when the destination lacks extended file names: the
   program then quotes the bytes 128-255 as well, but unquotes them to the UTF-8
   encoding of the code point (two bytes). *)
Theorem C10_fs_quoting_roundtrip_refuted :
  exists cls name,
    ctq_from_fsas true true (Some false) false = Some cls
    /\ fs_unquote (fs_quote cls false false name) <> name.
Proof.
  exact (ex_intro _ _ (ex_intro _ [chr 233] (conj eq_refl
    (fun H : [chr 195; chr 169] = [chr 233] =>
       eq_ind (chr 195 :: [chr 169]) (fun l => match l with [_] => False | _ => True end) I _ H)))).
Qed.
Print Assumptions C10_fs_quoting_roundtrip_refuted.

(* C10: no forbidden character is left in the quoted name (the set may not
   contain the digits and the quoting character needed to quote; the sets the
   program computes don't contain digits). *)
Theorem C10_fs_quoting_avoids_forbidden :
  forall src_cs dest_cs dest_ext dest_win cls edd ets (name : bytes) c,
    ctq_from_fsas src_cs dest_cs dest_ext dest_win = Some cls ->
    In c (fs_quote cls edd ets name) ->
    cls c = true -> c = ascii_of_N 59 (* the quoting character itself *).
Proof.
  exact (fun a b e w cls edd ets name c H Hin Hc =>
    match fs_quote_in cls edd ets name c Hin with
    | or_introl H0 => match eq_true_false_abs _ Hc H0 with end
    | or_intror (or_introl H1) => H1
    | or_intror (or_intror H2) =>
        match eq_true_false_abs _ Hc (ctq_not_digit a b e w cls c H H2) with end
    end).
Qed.
Print Assumptions C10_fs_quoting_avoids_forbidden.

(* C10: with the trailing space/period escape the quoted name never ends with
   either of them ([d] is what `last` returns for an empty name). *)
Theorem C10_no_trailing_space_or_period :
  forall cls edd (name : bytes) d,
    d <> chr 32 -> d <> chr 46 ->
    last (fs_quote cls edd true name) d <> chr 32
    /\ last (fs_quote cls edd true name) d <> chr 46.
Proof. exact fs_quote_last. Qed.
Print Assumptions C10_no_trailing_space_or_period.

(* C10: with the DOS device escape the quoted name is never a device name. *)
Theorem C10_no_dos_device :
  forall cls ets (name : bytes), dos_device (fs_quote cls true ets name) = false.
Proof. exact fs_quote_not_dos. Qed.
Print Assumptions C10_no_dos_device.

(* C10: different names stay different. *)
Theorem C10_fs_quoting_injective :
  forall cls edd ets (a b : bytes),
    (forall c, cls c = true -> (N_of_ascii c < 128)%N) ->
    fs_quote cls edd ets a = fs_quote cls edd ets b -> a = b.
Proof. exact fs_quote_inj. Qed.
Print Assumptions C10_fs_quoting_injective.

(* C10: once a repository has a quoting, every later session which is not
   refused uses the same one, whatever the file systems suggest or the user
   enforces. *)
Theorem C10_repository_quoting_constant :
  forall stored sessions x,
    In (Some x) (ctq_run (Some stored) sessions) -> x = stored.
Proof. exact ctq_run_const. Qed.
Print Assumptions C10_repository_quoting_constant.

Example C10_example :
  exists cls, ctq_from_fsas true false (Some true) true = Some cls
  /\ fs_quote cls true true (bs "AUX;:b. ") = bs ";065;085;088;059;058b.;032"
  /\ fs_quote (fun _ => false) true true (bs "aux.c.") = bs ";097ux.c;046"
  /\ fs_unquote (bs ";097ux.c;046") = bs "aux.c."
  /\ ctq_run None [(None, bs "A-Z;"); (None, []); (None, bs "x")]
     = [Some (bs "A-Z;"); Some (bs "A-Z;"); None].
Proof. eexists. repeat split; vm_compute; reflexivity. Qed.
