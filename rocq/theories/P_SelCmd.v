(** * C77: the selection options of the command line arrive as written *)
From Coq Require Import List NArith ZArith Bool Ascii Lia.
From Verif Require Import Base L_Base M_Select M_SelCmd S_SelCmd.
Import List ListNotations.

Section C77.
Variable compile : bytes -> option (bytes -> bool).

(** what SelectAction puts into the list for a request *)
Definition entry (env : cenv) (r : request) : option (bytes * value) :=
  let '(o, a) := spelling r in
  match r with
  | Include (Filelist s) | Include (GlobbingFilelist s)
  | Exclude (Filelist s) | Exclude (GlobbingFilelist s) =>
      match s with
      | FromFile f => option_map (fun c => (skipn 2 o, VFile f c)) (ce_file env f)
      | FromStdin => Some (firstn (length o - 8) (skipn 2 o), VFile (bs "standard input") (ce_stdin env))
      end
  | MinSize n | MaxSize n => Some (skipn 2 o, VInt (Z.of_N n))
  | _ => Some (skipn 2 o, match a with Some s => VStr s | None => VTrue end)
  end.

Lemma parse_one env st r :
  exists k v, lookup (fst (spelling r)) cmd_options = Some k /\
    values_of k (snd (spelling r)) = Some v /\
    select_call env st (fst (spelling r)) v =
      if reads_stdin r && negb (cs_open st) then Crash
      else match entry env r with
           | Some x => Done (mk_cst (cs_sel st ++ [x]) (cs_open st && negb (reads_stdin r)))
           | None => Usage
           end.
Proof.
  assert (K : forall (r : request) k v,
    lookup (fst (spelling r)) cmd_options = Some k ->
    values_of k (snd (spelling r)) = Some v ->
    select_call env st (fst (spelling r)) v =
      (if reads_stdin r && negb (cs_open st) then Crash
      else match entry env r with
           | Some x => Done (mk_cst (cs_sel st ++ [x]) (cs_open st && negb (reads_stdin r)))
           | None => Usage
           end) ->
    exists k v, lookup (fst (spelling r)) cmd_options = Some k /\
    values_of k (snd (spelling r)) = Some v /\
    select_call env st (fst (spelling r)) v =
      (if reads_stdin r && negb (cs_open st) then Crash
      else match entry env r with
           | Some x => Done (mk_cst (cs_sel st ++ [x]) (cs_open st && negb (reads_stdin r)))
           | None => Usage
           end)) by eauto.
  assert (Z1 : forall n, option_map VInt (parse_Z (dec n)) = Some (VInt (Z.of_N n)))
    by (intros n; now rewrite parse_Z_dec).
  destruct st as [sel op]; cbn [cs_sel cs_open] in *.
  destruct r as [w|w|n|n]; [destruct w as [| | | | | | | | |s|s]; try destruct s
                           |destruct w as [| | | | | | | | |s|s]; try destruct s| |].
  all: try (eapply K; [vm_compute; reflexivity|reflexivity|]).
  all: try (destruct env as [fl sin]; unfold select_call; cbn [spelling fst];
            destruct op; vm_compute; try reflexivity; destruct (fl _); reflexivity).
  all: try (destruct env as [fl sin]; unfold select_call; cbn [spelling fst];
            destruct op; vm_compute; try reflexivity;
            match goal with |- context [fl ?n] => destruct (fl n) end; reflexivity).
  all: eapply K; [vm_compute; reflexivity|cbn [values_of spelling snd]; apply Z1|].
  all: destruct op; reflexivity.
Qed.

Lemma dispatch_entry env r x : entry env r = Some x ->
  dispatch compile x =
    if unsupported r then Crash
    else match meaning compile env r with Some s => Done s | None => Crash end.
Proof.
  destruct env as [fl sin].
  destruct r as [[g|g|g| | | | | | |[f|]|[f|]]|[g|g|g| | | | | | |[f|]|[f|]]|n|n];
    unfold entry; cbn [spelling]; intros H;
    try (injection H as <-; vm_compute; reflexivity);
    try (cbn [ce_file] in H; destruct (fl f) eqn:E; [|discriminate];
         injection H as <-; cbn [unsupported meaning meaning_of text_of ce_file]; rewrite E;
         vm_compute; reflexivity).
  - injection H as <-. cbn [unsupported meaning meaning_of].
    change (apply_onearg compile (FRegexp true) (VStr g) =
            match option_map (fun m => ORegexp m true) (compile g) with Some s => Done s | None => Crash end).
    cbn [apply_onearg]. now destruct (compile g).
  - injection H as <-. cbn [unsupported meaning meaning_of].
    change (apply_onearg compile (FRegexp false) (VStr g) =
            match option_map (fun m => ORegexp m false) (compile g) with Some s => Done s | None => Crash end).
    cbn [apply_onearg]. now destruct (compile g).
Qed.

Lemma meaning_entry env r s : meaning compile env r = Some s -> exists x, entry env r = Some x.
Proof.
  destruct r as [[g|g|g| | | | | | |[f|]|[f|]]|[g|g|g| | | | | | |[f|]|[f|]]|n|n];
    unfold entry; cbn [spelling]; eauto;
    cbn [meaning meaning_of text_of]; destruct (ce_file env f); try discriminate;
    intros _; cbn [option_map]; eauto.
Qed.

Lemma parse_args_step env st r l :
  parse_args env st (map spelling (r :: l)) =
  if reads_stdin r && negb (cs_open st) then Crash
  else match entry env r with
       | Some x => parse_args env (mk_cst (cs_sel st ++ [x]) (cs_open st && negb (reads_stdin r))) (map spelling l)
       | None => Usage
       end.
Proof.
  cbn [map parse_args]. destruct (parse_one env st r) as (k & v & A & B & C).
  destruct (spelling r) as [o a]. cbn [fst snd] in *. rewrite A, B, C.
  destruct (reads_stdin r && negb (cs_open st)); [easy|]. now destruct (entry env r).
Qed.

Definition fits_stdin (st : cstate) (l : list request) : Prop :=
  stdin_readers l <= (if cs_open st then 1 else 0).

Lemma parse_args_exact env l st st' :
  parse_args env st (map spelling l) = Done st' <->
  fits_stdin st l /\
  exists es, map (entry env) l = map Some es /\
    st' = mk_cst (cs_sel st ++ es) (cs_open st && Nat.eqb (stdin_readers l) 0).
Proof.
  revert st. induction l as [|r l IH]; intros [sel op].
  - cbn [map parse_args]. unfold fits_stdin, stdin_readers. cbn [filter length cs_sel cs_open].
    rewrite Nat.eqb_refl, andb_true_r. split.
    + intros [= <-]. split; [lia|]. exists []. now rewrite app_nil_r.
    + intros (_ & [|e es] & H & ->); [now rewrite app_nil_r|discriminate].
  - rewrite parse_args_step. unfold fits_stdin, stdin_readers. cbn [filter map cs_sel cs_open].
    destruct (reads_stdin r) eqn:R; cbn [andb negb length].
    + destruct op; cbn [negb andb Nat.eqb].
      * destruct (entry env r) as [x|].
        -- rewrite IH. unfold fits_stdin. cbn [cs_open cs_sel andb]. split.
           ++ intros (L & es & E & ->). split; [unfold stdin_readers in L; lia|].
              exists (x :: es). cbn [map]. rewrite E, <- app_assoc. now split.
           ++ intros (L & es & E & ->). split; [unfold stdin_readers; lia|].
              destruct es as [|e es]; [discriminate|]. cbn [map] in E. injection E as -> E.
              exists es. rewrite <- app_assoc. now split.
        -- split; [discriminate|]. intros (_ & [|e es] & E & _); discriminate.
      * split; [discriminate|]. intros (L & _). lia.
    + rewrite andb_true_r. destruct (entry env r) as [x|].
      * rewrite IH. unfold fits_stdin. cbn [cs_open cs_sel]. split.
        -- intros (L & es & E & ->). split; [exact L|].
           exists (x :: es). cbn [map]. rewrite E, <- app_assoc. now split.
        -- intros (L & es & E & ->). split; [exact L|].
           destruct es as [|e es]; [discriminate|]. cbn [map] in E. injection E as -> E.
           exists es. rewrite <- app_assoc. now split.
      * split; [discriminate|]. intros (_ & [|e es] & E & _); discriminate.
Qed.

Lemma dispatch_all_exact env l es ms : map (entry env) l = map Some es ->
  (dispatch_all compile es = Done ms <->
   Forall (fun r => unsupported r = false) l /\ map (meaning compile env) l = map Some ms).
Proof.
  revert es ms. induction l as [|r l IH]; intros [|e es] ms H; try discriminate.
  - cbn [dispatch_all map]. split; [intros [= <-]; now split|].
    intros (_ & E). destruct ms; [easy|discriminate].
  - cbn [map] in H. injection H as E H. cbn [dispatch_all]. rewrite (dispatch_entry env r e E).
    destruct (unsupported r) eqn:U.
    { split; [discriminate|]. intros (F & _). inversion F. congruence. }
    cbn [map]. destruct (meaning compile env r) as [s|].
    + destruct (dispatch_all compile es) as [ms'| |] eqn:D.
      * destruct (proj1 (IH es ms' H) D) as (F & M). split.
        -- intros [= <-]. split; [now constructor|]. cbn [map]. now rewrite M.
        -- intros (_ & M2). destruct ms as [|m ms]; [discriminate|]. cbn [map] in M2.
           injection M2 as -> M2.
           destruct (IH es ms H) as [_ K]. rewrite K in D; [congruence|]. now split.
      * split; [discriminate|]. intros (F & M). destruct ms as [|m ms]; [discriminate|].
        cbn [map] in M. injection M as _ M. inversion F; subst.
        destruct (IH es ms H) as [_ K]. rewrite K in D; [discriminate|]. now split.
      * split; [discriminate|]. intros (F & M). destruct ms as [|m ms]; [discriminate|].
        cbn [map] in M. injection M as _ M. inversion F; subst.
        destruct (IH es ms H) as [_ K]. rewrite K in D; [discriminate|]. now split.
    + split; [discriminate|]. intros (_ & M). destruct ms; discriminate.
Qed.

(** The criteria used are what the options written mean, each one and in the order of the
    command line; and there is a selection exactly if all of them are supported, at most
    one reads the standard input, and what they refer to can be read. *)
Theorem C77_command_line env l ms :
  command compile env (map spelling l) = Done ms <->
  Forall (fun r => unsupported r = false) l /\ stdin_readers l <= 1 /\
  map (meaning compile env) l = map Some ms.
Proof.
  unfold command. split.
  - destruct (parse_args env _ _) as [st| |] eqn:P; try discriminate.
    apply parse_args_exact in P. destruct P as (L & es & E & ->). cbn [cs_sel app].
    intros H. apply (dispatch_all_exact env l es ms E) in H. unfold fits_stdin in L.
    cbn [cs_open] in L. now repeat split.
  - intros (F & L & M).
    assert (X : exists es, map (entry env) l = map Some es).
    { clear F L. revert ms M. induction l as [|r l IH]; intros ms M; [now exists []|].
      destruct ms as [|m ms]; [discriminate|]. cbn [map] in M. injection M as M0 M.
      destruct (meaning_entry env r m M0) as (x & E). destruct (IH ms M) as (es & Es).
      exists (x :: es). cbn [map]. now rewrite E, Es. }
    destruct X as (es & E).
    assert (P : parse_args env (mk_cst [] true) (map spelling l) =
                Done (mk_cst ([] ++ es) (true && Nat.eqb (stdin_readers l) 0))).
    { apply parse_args_exact. split; [exact L|]. now exists es. }
    rewrite P. cbn [cs_sel app]. apply (dispatch_all_exact env l es ms E). now split.
Qed.

(** Every option of the parser is one of those of the manual page, and has the argument
    it has there. *)
Theorem C77_options_are_documented o k :
  lookup o cmd_options = Some k ->
  exists r, fst (spelling r) = o /\
    match snd (spelling r) with Some _ => k <> ABool | None => k = ABool end.
Proof.
  unfold cmd_options.
  let l := eval vm_compute in (flat_map (fun x => map (fun o => (o, snd x)) (option_strings (fst x))) selection_parser) in
  change (flat_map _ selection_parser) with l.
  cbn [lookup].
  repeat (match goal with |- (if beq_bytes ?x o then _ else _) = _ -> _ =>
            let E := fresh "E" in
            destruct (beq_bytes x o) eqn:E;
              [apply beq_bytes_true in E; subst o; intros [= <-]|clear E] end).
  - exists (Exclude (Glob [])); split; [reflexivity|first [discriminate|reflexivity]].
  - exists (Include (Glob [])); split; [reflexivity|first [discriminate|reflexivity]].
  - exists (Exclude DeviceFiles); split; [reflexivity|first [discriminate|reflexivity]].
  - exists (Include DeviceFiles); split; [reflexivity|first [discriminate|reflexivity]].
  - exists (Exclude Fifos); split; [reflexivity|first [discriminate|reflexivity]].
  - exists (Include Fifos); split; [reflexivity|first [discriminate|reflexivity]].
  - exists (Exclude (Filelist (FromFile []))); split; [reflexivity|first [discriminate|reflexivity]].
  - exists (Include (Filelist (FromFile []))); split; [reflexivity|first [discriminate|reflexivity]].
  - exists (Exclude (Filelist FromStdin)); split; [reflexivity|first [discriminate|reflexivity]].
  - exists (Include (Filelist FromStdin)); split; [reflexivity|first [discriminate|reflexivity]].
  - exists (Exclude SymbolicLinks); split; [reflexivity|first [discriminate|reflexivity]].
  - exists (Include SymbolicLinks); split; [reflexivity|first [discriminate|reflexivity]].
  - exists (Exclude Sockets); split; [reflexivity|first [discriminate|reflexivity]].
  - exists (Include Sockets); split; [reflexivity|first [discriminate|reflexivity]].
  - exists (Exclude (GlobbingFilelist (FromFile []))); split; [reflexivity|first [discriminate|reflexivity]].
  - exists (Include (GlobbingFilelist (FromFile []))); split; [reflexivity|first [discriminate|reflexivity]].
  - exists (Exclude (GlobbingFilelist FromStdin)); split; [reflexivity|first [discriminate|reflexivity]].
  - exists (Include (GlobbingFilelist FromStdin)); split; [reflexivity|first [discriminate|reflexivity]].
  - exists (Exclude OtherFilesystems); split; [reflexivity|first [discriminate|reflexivity]].
  - exists (Include OtherFilesystems); split; [reflexivity|first [discriminate|reflexivity]].
  - exists (Exclude (Regexp [])); split; [reflexivity|first [discriminate|reflexivity]].
  - exists (Include (Regexp [])); split; [reflexivity|first [discriminate|reflexivity]].
  - exists (Exclude (IfPresent [])); split; [reflexivity|first [discriminate|reflexivity]].
  - exists (Include (IfPresent [])); split; [reflexivity|first [discriminate|reflexivity]].
  - exists (Exclude SpecialFiles); split; [reflexivity|first [discriminate|reflexivity]].
  - exists (Include SpecialFiles); split; [reflexivity|first [discriminate|reflexivity]].
  - exists (MaxSize 0); split; [reflexivity|first [discriminate|reflexivity]].
  - exists (MinSize 0); split; [reflexivity|first [discriminate|reflexivity]].
  - discriminate.
Qed.

(** A file list which can't be read is reported before anything is done. *)
Theorem C77_unreadable_list_reported env l1 r l2 :
  stdin_readers (l1 ++ [r]) <= 1 ->
  Forall (fun x => entry env x <> None) l1 -> entry env r = None ->
  command compile env (map spelling (l1 ++ r :: l2)) = Usage.
Proof.
  intros L F E. unfold command.
  enough (G : forall st, fits_stdin st (l1 ++ [r]) ->
            parse_args env st (map spelling (l1 ++ r :: l2)) = Usage) by (now rewrite G).
  clear L. induction l1 as [|x l1 IH]; intros st L.
  - cbn [app]. rewrite parse_args_step, E.
    unfold fits_stdin, stdin_readers in L. cbn [app filter] in L.
    destruct (reads_stdin r); cbn [length andb] in *; [|easy].
    destruct (cs_open st); [easy|lia].
  - cbn [app]. rewrite parse_args_step. inversion F as [|? ? F1 F2]; subst.
    unfold fits_stdin, stdin_readers in L. cbn [app filter] in L.
    destruct (entry env x) as [y|]; [|congruence].
    destruct (reads_stdin x) eqn:R; cbn [length andb negb] in *.
    + destruct (cs_open st) eqn:O; cbn [negb]; [|lia].
      apply IH; [easy|]. unfold fits_stdin, stdin_readers. cbn [cs_open andb]. lia.
    + apply IH; [easy|]. unfold fits_stdin, stdin_readers. cbn [cs_open].
      rewrite andb_true_r. exact L.
Qed.
Theorem C77_only_lists_can_be_unreadable env r :
  entry env r = None <-> exists f, ce_file env f = None /\
    In r [Include (Filelist (FromFile f)); Exclude (Filelist (FromFile f));
          Include (GlobbingFilelist (FromFile f)); Exclude (GlobbingFilelist (FromFile f))].
Proof.
  split.
  - destruct r as [[g|g|g| | | | | | |[f|]|[f|]]|[g|g|g| | | | | | |[f|]|[f|]]|n|n];
      unfold entry; cbn [spelling]; try discriminate;
      destruct (ce_file env f) eqn:E; try discriminate; intros _; exists f; split; trivial;
      cbn [In]; auto 6.
  - intros (f & E & [<-|[<-|[<-|[<-|[]]]]]); unfold entry; cbn [spelling]; now rewrite E.
Qed.

(** So is an option which isn't one, an argument which is missing or too many, and a size
    which isn't a number. *)
Definition malformed (o : bytes) (a : option bytes) : Prop :=
  (forall r, fst (spelling r) <> o) \/
  (exists r, fst (spelling r) = o /\ (a = None <-> snd (spelling r) <> None)) \/
  (exists n s, (o = fst (spelling (MinSize n)) \/ o = fst (spelling (MaxSize n))) /\
     a = Some s /\ parse_Z s = None).
Lemma spelling_kind r : exists k, lookup (fst (spelling r)) cmd_options = Some k /\
  match snd (spelling r) with Some _ => k <> ABool | None => k = ABool end.
Proof.
  destruct r as [[g|g|g| | | | | | |[f|]|[f|]]|[g|g|g| | | | | | |[f|]|[f|]]|n|n];
    (eexists; split; [vm_compute; reflexivity|first [discriminate|reflexivity]]).
Qed.
Theorem C77_malformed_reported env l1 o a l2 :
  stdin_readers l1 <= 1 -> Forall (fun x => entry env x <> None) l1 -> malformed o a ->
  command compile env (map spelling l1 ++ (o, a) :: l2) = Usage.
Proof.
  intros L F M. unfold command.
  assert (B : forall st, parse_args env st ((o, a) :: l2) = Usage).
  { intros st. cbn [parse_args]. destruct (lookup o cmd_options) as [k|] eqn:K; [|easy].
    replace (values_of k a) with (@None value); [easy|]. symmetry.
    destruct M as [M|[(r & <- & M)|(n & s & M & -> & N)]].
    - exfalso. destruct (C77_options_are_documented o k K) as (r & E & _). now apply (M r).
    - destruct (spelling_kind r) as (k' & K' & V). rewrite K in K'. injection K' as <-.
      destruct (snd (spelling r)) as [x|].
      + destruct a as [y|]; [exfalso; destruct M as [_ M]; now discriminate M|].
        now destruct k.
      + subst k. destruct a as [y|]; [easy|]. exfalso. destruct M as [M _]. now apply M.
    - assert (k = AInt) as ->.
      { destruct M as [->| ->]; revert K; vm_compute; congruence. }
      cbn [values_of]. now rewrite N. }
  enough (G : forall st, fits_stdin st l1 -> parse_args env st (map spelling l1 ++ (o, a) :: l2) = Usage)
    by (now rewrite G).
  clear L. revert F. induction l1 as [|x l1 IH]; intros F st L; [apply B|].
  inversion F as [|? ? F1 F2]; subst. cbn [map app].
  destruct (parse_one env st x) as (k & v & A1 & A2 & A3).
  unfold fits_stdin, stdin_readers in L. cbn [filter] in L.
  cbn [parse_args]. destruct (spelling x) as [o' a']. cbn [fst snd] in *.
  rewrite A1, A2, A3. destruct (entry env x) as [y|]; [|congruence].
  destruct (reads_stdin x) eqn:R; cbn [length andb negb] in *.
  - destruct (cs_open st) eqn:O; cbn [negb]; [|lia].
    apply IH; [easy|]. unfold fits_stdin, stdin_readers. cbn [cs_open andb]. lia.
  - apply IH; [easy|]. unfold fits_stdin, stdin_readers. cbn [cs_open].
    rewrite andb_true_r. exact L.
Qed.

(** ** Restoring a sub-path with a selection *)

(** It is refused exactly if one of the options selects by name. *)
Lemma entry_by_name env r x : entry env r = Some x ->
  existsb (beq_bytes (fst x)) file_selections = by_name r.
Proof.
  destruct r as [[g|g|g| | | | | | |[f|]|[f|]]|[g|g|g| | | | | | |[f|]|[f|]]|n|n];
    unfold entry; cbn [spelling]; intros H;
    try (injection H as <-; vm_compute; reflexivity);
    destruct (ce_file env f); try discriminate; injection H as <-; vm_compute; reflexivity.
Qed.
Theorem C77_subpath_selection env l st n i :
  parse_args env (mk_cst [] true) (map spelling l) = Done st ->
  subpath_refused (n :: i) (cs_sel st) = existsb by_name l /\
  subpath_refused [] (cs_sel st) = false.
Proof.
  intros P. apply parse_args_exact in P. destruct P as (_ & es & E & ->).
  cbn [cs_sel app subpath_refused]. split; [|easy].
  revert es E. induction l as [|r l IH]; intros [|e es] E; try discriminate; [easy|].
  cbn [map] in E. injection E as E0 E. cbn [existsb].
  now rewrite (entry_by_name env r e E0), (IH es E).
Qed.

(** ** What isn't as documented *)

(** Four documented options stop the program with an exception, whatever else is given. *)
Theorem C77_documented_option_refuted env l r ms :
  In r [Include DeviceFiles; Include Fifos; Include Sockets; Include OtherFilesystems] ->
  In r l -> command compile env (map spelling l) <> Done ms.
Proof.
  intros R I H. apply C77_command_line in H. destruct H as (F & _).
  rewrite Forall_forall in F. specialize (F r I).
  destruct R as [<-|[<-|[<-|[<-|[]]]]]; discriminate.
Qed.
Theorem C77_documented_option_crashes_refuted env r :
  In r [Include DeviceFiles; Include Fifos; Include Sockets; Include OtherFilesystems] ->
  command compile env (map spelling [r]) = Crash.
Proof. intros [<-|[<-|[<-|[<-|[]]]]]; vm_compute; reflexivity. Qed.

(** The standard input can be read once only; the second time is an exception. *)
Theorem C77_stdin_twice_refuted env l r1 r2 :
  reads_stdin r1 = true -> reads_stdin r2 = true ->
  command compile env (map spelling (r1 :: r2 :: l)) = Crash.
Proof.
  intros H1 H2. unfold command. rewrite parse_args_step, H1. cbn [cs_open negb andb].
  destruct (entry env r1) as [x|] eqn:E.
  - now rewrite parse_args_step, H2.
  - exfalso. apply C77_only_lists_can_be_unreadable in E.
    destruct E as (f & _ & [<-|[<-|[<-|[<-|[]]]]]); discriminate.
Qed.
End C77.

(** ** Examples *)
Definition ex_env : cenv :=
  mk_cenv (fun f => if beq_bytes f (bs "list") then Some (bs "a" ++ [nl] ++ bs "b") else None) (bs "- c").
Definition ex_compile (r : bytes) : option (bytes -> bool) := Some (contains r).
Definition ex_requests : list request :=
  [Include (Glob (bs "/home/*/mail")); Exclude (Filelist (FromFile (bs "list"))); MaxSize 1000;
   Include (GlobbingFilelist FromStdin); Exclude SpecialFiles; Exclude OtherFilesystems].
Example ex_words : map spelling ex_requests =
  [(bs "--include", Some (bs "/home/*/mail")); (bs "--exclude-filelist", Some (bs "list"));
   (bs "--max-file-size", Some (bs "1000")); (bs "--include-globbing-filelist-stdin", None);
   (bs "--exclude-special-files", None); (bs "--exclude-other-filesystems", None)].
Proof. reflexivity. Qed.
Example ex_command : command ex_compile ex_env (map spelling ex_requests) =
  Done [OGlob (bs "/home/*/mail") true; OFilelist (bs "a" ++ [nl] ++ bs "b") false;
        OSize 1000 true; OGlobFilelist (bs "- c") true; OPred PSpecial false; OOtherFs].
Proof. vm_compute. reflexivity. Qed.
Example ex_malformed : malformed (bs "--exclude-fifo") None /\ malformed (bs "--include") None /\
  malformed (bs "--max-file-size") (Some (bs "1k")).
Proof.
  split; [left|split; right; [left|right]].
  - intros [[g|g|g| | | | | | |[f|]|[f|]]|[g|g|g| | | | | | |[f|]|[f|]]|n|n]; discriminate.
  - exists (Include (Glob [])). split; [reflexivity|split; [discriminate|reflexivity]].
  - exists 0%N, (bs "1k"). split; [now right|split; reflexivity].
Qed.
Example ex_missing : command ex_compile ex_env (map spelling [Exclude (Filelist (FromFile (bs "none")))]) = Usage.
Proof. vm_compute. reflexivity. Qed.

Print Assumptions C77_command_line.
Print Assumptions C77_options_are_documented.
Print Assumptions C77_unreadable_list_reported.
Print Assumptions C77_malformed_reported.
Print Assumptions C77_only_lists_can_be_unreadable.
Print Assumptions C77_subpath_selection.
Print Assumptions C77_documented_option_refuted.
Print Assumptions C77_documented_option_crashes_refuted.
Print Assumptions C77_stdin_twice_refuted.
