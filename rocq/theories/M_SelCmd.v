(** * From the command line to the selection

    Models src/rdiffbackup/utils/argopts.py (SelectAction), the table of the selection
    options in src/rdiffbackup/actions/__init__.py (SELECTION_PARSER), the dispatch of
    src/rdiff_backup/selection.py (_init_parsing_mapping, parse_selection_args) and the
    check of actions/restore.py on selections with a sub-path.  argparse itself isn't
    modelled: it calls the action once for each option on the command line, from left to
    right, with the full name of the option. *)
From Coq Require Import List NArith ZArith Bool Ascii.
From Verif Require Import Base M_Select.
Import List ListNotations.

(** ** The table of the options *)

(** AStr: one argument, AInt: one argument with type=int, ABool: no argument *)
Inductive akind := AStr | AInt | ABool.
(** actions/__init__.py:136-236 *)
Definition selection_parser : list (bytes * akind) :=
  [ (bs "--SELECT", AStr); (bs "--SELECT-device-files", ABool);
    (bs "--SELECT-fifos", ABool); (bs "--SELECT-filelist", AStr);
    (bs "--SELECT-filelist-stdin", ABool); (bs "--SELECT-symbolic-links", ABool);
    (bs "--SELECT-sockets", ABool); (bs "--SELECT-globbing-filelist", AStr);
    (bs "--SELECT-globbing-filelist-stdin", ABool);
    (bs "--SELECT-other-filesystems", ABool); (bs "--SELECT-regexp", AStr);
    (bs "--SELECT-if-present", AStr); (bs "--SELECT-special-files", ABool);
    (bs "--max-file-size", AInt); (bs "--min-file-size", AInt) ].

(** argopts.py:80-87: x.replace("SELECT", word).  Simplified: the names have the
    placeholder after the two dashes or not at all. *)
Definition replace_select (word s : bytes) : bytes :=
  if starts_with (bs "--SELECT") s then bs "--" ++ word ++ skipn 8 s else s.
(** 88-91 *)
Definition option_strings (s : bytes) : list bytes :=
  let i := replace_select (bs "include") s in
  let e := replace_select (bs "exclude") s in
  if beq_bytes e i then [s] else [e; i].
Definition cmd_options : list (bytes * akind) :=
  flat_map (fun x => map (fun o => (o, snd x)) (option_strings (fst x))) selection_parser.

(** ** SelectAction *)
Inductive value := VTrue | VStr (s : bytes) | VInt (z : Z) | VFile (name content : bytes).

Fixpoint contains (sub s : bytes) : bool :=
  starts_with sub s || match s with [] => false | _ :: r => contains sub r end.
Definition ends_with (suf s : bytes) : bool :=
  Nat.leb (length suf) (length s) && beq_bytes (skipn (length s - length suf) s) suf.

(** the files which can be read; what comes from the standard input, and whether it is
    still open *)
Record cenv := mk_cenv { ce_file : bytes -> option bytes; ce_stdin : bytes }.
Record cstate := mk_cst { cs_sel : list (bytes * value); cs_open : bool }.
Inductive result (A : Type) := Done (a : A) | Usage | Crash.
Arguments Done {A}. Arguments Usage {A}. Arguments Crash {A}.

(** what argparse hands over as [values]; outer [None]: usage error.  int() takes more
    notations than parse_Z. *)
Definition values_of (k : akind) (arg : option bytes) : option value :=
  match k, arg with
  | AStr, Some s => Some (VStr s)
  | AInt, Some s => option_map VInt (parse_Z s)
  | ABool, None => Some VTrue         (* [] and then the default (137-138), set at 74-77 *)
  | _, _ => None
  end.
(** 139-141 option_string.replace("--", ""): only at the beginning in these names *)
Definition strip_dashes (o : bytes) : bytes := if starts_with (bs "--") o then skipn 2 o else o.

(** argopts.py:105-141 __call__.  A closed stdin raises ValueError, which isn't caught. *)
Definition select_call (env : cenv) (st : cstate) (o : bytes) (v : value) : result cstate :=
  if contains (bs "filelist") o then
    if ends_with (bs "-stdin") o then
      if cs_open st then
        let o' := firstn (length o - 6) o in
        Done (mk_cst (cs_sel st ++ [(strip_dashes o', VFile (bs "standard input") (ce_stdin env))]) false)
      else Crash
    else match v with
         | VStr f => match ce_file env f with
                     | Some c => Done (mk_cst (cs_sel st ++ [(strip_dashes o, VFile f c)]) (cs_open st))
                     | None => Usage
                     end
         | _ => Usage
         end
  else Done (mk_cst (cs_sel st ++ [(strip_dashes o, v)]) (cs_open st)).

Fixpoint lookup {A} (o : bytes) (l : list (bytes * A)) : option A :=
  match l with
  | [] => None
  | (k, a) :: r => if beq_bytes k o then Some a else lookup o r
  end.

(** the options of the command line, from left to right *)
Fixpoint parse_args (env : cenv) (st : cstate) (args : list (bytes * option bytes)) : result cstate :=
  match args with
  | [] => Done st
  | (o, a) :: r =>
      match lookup o cmd_options with
      | None => Usage
      | Some k =>
          match values_of k a with
          | None => Usage
          | Some v =>
              match select_call env st o v with
              | Done st' => parse_args env st' r
              | Usage => Usage
              | Crash => Crash
              end
          end
      end
  end.

(** ** The dispatch *)
Section Dispatch.
(** re.compile(...).search; [None]: re.error *)
Variable compile : bytes -> option (bytes -> bool).

(** selection.py:208-220 *)
Definition noargs_mapping : list (bytes * sopt) :=
  [ (bs "exclude-special-files", OPred PSpecial false);
    (bs "exclude-symbolic-links", OPred PSym false);
    (bs "exclude-device-files", OPred PDev false);
    (bs "exclude-sockets", OPred PSock false);
    (bs "exclude-fifos", OPred PFifo false);
    (bs "exclude-other-filesystems", OOtherFs);
    (bs "include-special-files", OPred PSpecial true);
    (bs "include-symbolic-links", OPred PSym true) ].
(** 221-230 *)
Inductive onearg := FGlob (inc : bool) | FRegexp (inc : bool) | FPresence (inc : bool) | FSize (ismax : bool).
Definition onearg_mapping : list (bytes * onearg) :=
  [ (bs "exclude", FGlob false); (bs "exclude-regexp", FRegexp false);
    (bs "exclude-if-present", FPresence false); (bs "include", FGlob true);
    (bs "include-regexp", FRegexp true); (bs "include-if-present", FPresence true);
    (bs "min-file-size", FSize false); (bs "max-file-size", FSize true) ].
(** 231-238 *)
Definition filelist_mapping : list (bytes * bool) :=
  [ (bs "exclude-filelist", false); (bs "include-filelist", true) ].
Definition globfilelist_mapping : list (bytes * bool) :=
  [ (bs "exclude-globbing-filelist", false); (bs "include-globbing-filelist", true) ].

Definition apply_onearg (f : onearg) (v : value) : result sopt :=
  match f, v with
  | FGlob inc, VStr s => Done (OGlob s inc)
  | FRegexp inc, VStr s => match compile s with Some m => Done (ORegexp m inc) | None => Crash end
  | FPresence inc, VStr s => Done (OPresent s inc)
  | FSize m, VInt z => Done (OSize z m)
  | _, _ => Crash
  end.

(** 161-189, the branches in their order; the selection functions themselves are those of
    M_Select.parse_selection_args *)
Definition dispatch (x : bytes * value) : result sopt :=
  let '(o, v) := x in
  match lookup o noargs_mapping with
  | Some s => Done s
  | None =>
      match lookup o onearg_mapping with
      | Some f => apply_onearg f v
      | None =>
          match lookup o filelist_mapping with
          | Some inc => match v with VFile _ c => Done (OFilelist c inc) | _ => Crash end
          | None =>
              match lookup o globfilelist_mapping with
              | Some inc => match v with VFile _ c => Done (OGlobFilelist c inc) | _ => Crash end
              | None => Crash      (* RuntimeError *)
              end
          end
      end
  end.
Fixpoint dispatch_all (l : list (bytes * value)) : result (list sopt) :=
  match l with
  | [] => Done []
  | x :: r =>
      match dispatch x with
      | Done s => match dispatch_all r with Done l' => Done (s :: l') | e => e end
      | Usage => Usage
      | Crash => Crash
      end
  end.

(** the selection of the whole command line (without an option: none, 881-886) *)
Definition command (env : cenv) (args : list (bytes * option bytes)) : result (list sopt) :=
  match parse_args env (mk_cst [] true) args with
  | Done st => dispatch_all (cs_sel st)
  | Usage => Usage
  | Crash => Crash
  end.
End Dispatch.

(** ** Selections and the restore of a sub-path *)

(** actions/restore.py:115-144: refused if true *)
Definition file_selections : list bytes :=
  [ bs "include"; bs "exclude"; bs "exclude-filelist"; bs "include-filelist";
    bs "exclude-filelist-stdin"; bs "include-filelist-stdin";
    bs "exclude-globbing-filelist"; bs "include-globbing-filelist";
    bs "exclude-globbing-filelist-stdin"; bs "include-globbing-filelist-stdin";
    bs "exclude-regexp"; bs "include-regexp" ].
Definition subpath_refused (ref_index : list bytes) (sel : list (bytes * value)) : bool :=
  match ref_index with
  | [] => false
  | _ => existsb (fun x => existsb (beq_bytes (fst x)) file_selections) sel
  end.
