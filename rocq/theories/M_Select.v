(** * File selection (src/rdiff_backup/selection.py)

    A selection function is a value of type [sf]; the only selection functions
    with a state, the ones of file lists, carry their cursor, so that calling a
    function returns also the function to be used next.  Python's exceptions
    raised by a selection function are [Raises].  Regular expressions given by
    the user are any predicate on the path. *)
From Coq Require Import List ZArith Bool Ascii.
From Verif Require Import Base M_Iter.
Import List ListNotations.
Local Open Scope Z_scope.

(** 92-94: EXCLUDE, INCLUDE, DOSCAN *)
Inductive verdict : Type := Exclude | Include | Doscan.

(** What [lstat] says about a file.  [KGone]: the file vanished after the
    directory was listed, or looking at it failed (308-311).  [KDir r]: [r] is
    [rp.readable()]. *)
Inductive fkind : Type :=
| KReg (size : Z) | KDir (readable : bool) | KSym | KSock | KFifo | KDev | KGone.
Record finfo : Type := mk_finfo { fi_kind : fkind; fi_dev : Z }.

(** The path handed to a selection function: index, full path and data;
    [None] is the [{"type": None}] of new_index_empty (rpath.py:1058-1060). *)
Record srp : Type := mk_srp { rp_index : idx; rp_path : bytes; rp_data : option finfo }.

Definition rp_isdir (rp : srp) : bool :=
  match rp_data rp with Some i => match fi_kind i with KDir _ => true | _ => false end | None => false end.
Definition rp_readable (rp : srp) : bool :=
  match rp_data rp with Some i => match fi_kind i with KDir r => r | _ => true end | None => false end.
Definition rp_isreg (rp : srp) : option Z :=
  match rp_data rp with Some i => match fi_kind i with KReg n => Some n | _ => None end | None => None end.
Definition rp_issym (rp : srp) : bool :=
  match rp_data rp with Some i => match fi_kind i with KSym => true | _ => false end | None => false end.
Definition rp_issock (rp : srp) : bool :=
  match rp_data rp with Some i => match fi_kind i with KSock => true | _ => false end | None => false end.
Definition rp_isfifo (rp : srp) : bool :=
  match rp_data rp with Some i => match fi_kind i with KFifo => true | _ => false end | None => false end.
Definition rp_isdev (rp : srp) : bool :=
  match rp_data rp with Some i => match fi_kind i with KDev => true | _ => false end | None => false end.

(** The base directory: its path, and which files [dir/name] exist. *)
Record sctx : Type := mk_sctx {
  c_base : bytes;
  c_present : idx -> bytes -> bool }.

Definition slash : ascii := "/".

(** rpath.py:678: path_join(base, *index), for a base other than "/" *)
Definition path_of (c : sctx) (i : idx) : bytes := join_with [slash] (c_base c :: i).

(** 106: prefixindex *)
Definition nonempty (b : bytes) : bool := match b with [] => false | _ => true end.
Definition components (p : bytes) : idx := filter nonempty (split_on slash p).
Definition prefixindex (c : sctx) : idx := components (c_base c).

(** 301-311 _get_relative_index; [None]: FilePrefixError *)
Definition relative_index (c : sctx) (filename : bytes) : option idx :=
  let fileindex := components filename in
  if is_prefix (prefixindex c) fileindex
  then Some (skipn (length (prefixindex c)) fileindex) else None.

(** ** Globs: _glob_to_re (selection.py:787-836)

    The regular expression built by _glob_to_re is represented by the list of
    its parts; the translation is done on the bytes (fsdecode/fsencode commute
    with it). *)
Inductive gtok : Type :=
| GLit (c : ascii)        (* the character itself, escaped *)
| GDstar                  (* any sequence of characters *)
| GStar                   (* any sequence of characters other than a slash *)
| GQuest                  (* one character other than a slash *)
| GClass (neg : bool) (items : list (ascii * ascii)). (* character class *)

Definition c_bs : ascii := chr 92.
Definition c_star : ascii := "*".
Definition c_quest : ascii := "?".
Definition c_open : ascii := "[".
Definition c_close : ascii := "]".
Definition c_minus : ascii := "-".
Definition is_neg (c : ascii) : bool := Ascii.eqb c "!" || Ascii.eqb c "^".

(** Python's reading of the inside of a [...] in a regular expression: ranges
    a-b; [None]: re.error (bad character range). *)
Fixpoint class_items (s : bytes) : option (list (ascii * ascii)) :=
  match s with
  | [] => Some []
  | a :: r =>
      match r with
      | m :: b :: r' =>
          if Ascii.eqb m c_minus then
            if (ord a <=? ord b)%N then option_map (cons (a, b)) (class_items r') else None
          else option_map (cons (a, a)) (class_items r)
      | _ => option_map (cons (a, a)) (class_items r)
      end
  end.

(** 814-829: the text after "[" : contents up to the closing "]" and the rest;
    [None]: no closing bracket, "[" is literal *)
Definition class_head (s : bytes) : bytes * bytes :=  (* skip one of "!^" then one "]" *)
  let '(h1, s1) := match s with c :: r => if is_neg c then ([c], r) else ([], s) | [] => ([], []) end in
  match s1 with
  | c :: r => if Ascii.eqb c c_close then (h1 ++ [c], r) else (h1, s1)
  | [] => (h1, [])
  end.
Definition class_split (s : bytes) : option (bytes * bytes) :=
  let '(h, s1) := class_head s in
  let '(a, b) := break_on c_close s1 in
  match b with Some r => Some (h ++ a, r) | None => None end.

Definition class_tok (stuff : bytes) : option gtok :=
  match stuff with
  | c :: r => if is_neg c then option_map (GClass true) (class_items r)
              else option_map (GClass false) (class_items stuff)
  | [] => None
  end.

(** the loop of _glob_to_re; [fuel]: at most one round per byte *)
Fixpoint glob_toks_fuel (fuel : nat) (s : bytes) : option (list gtok) :=
  match fuel with
  | O => Some []
  | S f =>
      match s with
      | [] => Some []
      | c :: r =>
          if Ascii.eqb c c_bs then
            match r with
            | [] => Some [GLit c]
            | d :: r' => option_map (cons (GLit d)) (glob_toks_fuel f r')
            end
          else if Ascii.eqb c c_star then
            match r with
            | d :: r' => if Ascii.eqb d c_star then option_map (cons GDstar) (glob_toks_fuel f r')
                         else option_map (cons GStar) (glob_toks_fuel f r)
            | [] => Some [GStar]
            end
          else if Ascii.eqb c c_quest then option_map (cons GQuest) (glob_toks_fuel f r)
          else if Ascii.eqb c c_open then
            match class_split r with
            | None => option_map (cons (GLit c)) (glob_toks_fuel f r)
            | Some (stuff, r') =>
                match class_tok stuff, glob_toks_fuel f r' with
                | Some t, Some l => Some (t :: l)
                | _, _ => None
                end
            end
          else option_map (cons (GLit c)) (glob_toks_fuel f r)
      end
  end.
Definition glob_toks (s : bytes) : option (list gtok) := glob_toks_fuel (length s) s.

(** re.I on bytes: ASCII letters only *)
Definition lower (c : ascii) : ascii :=
  if (65 <=? ord c)%N && (ord c <=? 90)%N then chr (ord c + 32) else c.
Definition upper (c : ascii) : ascii :=
  if (97 <=? ord c)%N && (ord c <=? 122)%N then chr (ord c - 32) else c.
Definition same_char (ic : bool) (a b : ascii) : bool :=
  if ic then Ascii.eqb (lower a) (lower b) else Ascii.eqb a b.
Definition in_ranges (l : list (ascii * ascii)) (c : ascii) : bool :=
  existsb (fun '(a, b) => (ord a <=? ord c)%N && (ord c <=? ord b)%N) l.
Definition in_class (ic : bool) (l : list (ascii * ascii)) (c : ascii) : bool :=
  if ic then in_ranges l (lower c) || in_ranges l (upper c) else in_ranges l c.

(** Does the expression, followed by the continuation [k], match at the start of
    the string?  (backtracking search of a regular expression) *)
Section GM.
Variable ic : bool.
Fixpoint gm (t : list gtok) (k : bytes -> bool) (s : bytes) {struct t} : bool :=
  match t with
  | [] => k s
  | GLit c :: t' => match s with x :: s' => same_char ic c x && gm t' k s' | [] => false end
  | GQuest :: t' => match s with x :: s' => negb (Ascii.eqb x slash) && gm t' k s' | [] => false end
  | GClass neg items :: t' =>
      match s with x :: s' => xorb neg (in_class ic items x) && gm t' k s' | [] => false end
  | GStar :: t' =>
      (fix star (s : bytes) : bool :=
         gm t' k s || match s with x :: s' => negb (Ascii.eqb x slash) && star s' | [] => false end) s
  | GDstar :: t' =>
      (fix star (s : bytes) : bool :=
         gm t' k s || match s with _ :: s' => star s' | [] => false end) s
  end.
End GM.

(** Python's [$]: the end, or before a newline at the end *)
Definition at_end (s : bytes) : bool :=
  match s with [] => true | [c] => Ascii.eqb c nl | _ => false end.
Definition end_or_slash (s : bytes) : bool :=
  at_end s || match s with c :: _ => Ascii.eqb c slash | [] => false end.

(** 748-749 [s[: s.find("**") + 2]], the whole string if there is none *)
Fixpoint trunc_dstar (s : bytes) : bytes :=
  match s with
  | [] => []
  | c :: r =>
      if Ascii.eqb c c_star && match r with d :: _ => Ascii.eqb d c_star | [] => false end
      then [c_star; c_star] else c :: trunc_dstar r
  end.

(** 765-785 _glob_get_prefix_res; not on Windows; [None]: GlobbingError or re.error *)
Fixpoint initials {A} (l : list A) : list (list A) :=
  match l with [] => [] | x :: r => [x] :: map (cons x) (initials r) end.
Definition has_empty (l : list bytes) : bool := existsb (fun b => negb (nonempty b)) l.
Definition inner {A} (l : list A) : list A := removelast (tl l).      (* l[1:-1] *)
Definition is_drive (b : bytes) : bool :=   (* re.fullmatch(b"[a-zA-Z*]:", b) *)
  match b with
  | [c; d] => (Ascii.eqb c c_star || (65 <=? ord c)%N && (ord c <=? 90)%N || (97 <=? ord c)%N && (ord c <=? 122)%N)
              && Ascii.eqb d ":"
  | _ => false
  end.
Definition fix_root (l : list bytes) : list bytes :=
  match l with p :: r => (if negb (nonempty p) || is_drive p then p ++ [slash] else p) :: r | [] => [] end.
Definition glob_prefixes (g : bytes) : option (list bytes) :=
  let parts := split_on slash g in
  if has_empty (inner parts) then None
  else Some (fix_root (map (join_with [slash]) (initials parts))).

Fixpoint all_some {A} (l : list (option A)) : option (list A) :=
  match l with
  | [] => Some []
  | Some x :: r => option_map (cons x) (all_some r)
  | None :: _ => None
  end.

(** glob_comp_re and scan_comp_re of _glob_get_normal_sf *)
Record glob_re : Type := mk_glob { g_ic : bool; g_full : list gtok; g_scan : list (list gtok) }.
Definition glob_compile (ic : bool) (g : bytes) : option glob_re :=
  match glob_toks g, glob_prefixes (trunc_dstar g) with
  | Some t, Some ps => option_map (mk_glob ic t) (all_some (map glob_toks ps))
  | _, _ => None
  end.
Definition glob_hit (g : glob_re) (p : bytes) : bool := gm (g_ic g) (g_full g) end_or_slash p.
Definition scan_hit (g : glob_re) (p : bytes) : bool :=
  existsb (fun t => gm (g_ic g) t at_end p) (g_scan g).

(** 738-741 "ignorecase:" *)
Definition ignorecase : bytes := bs "ignorecase:".
Definition has_ignorecase (g : bytes) : bool := starts_with ignorecase (map lower g).
Definition glob_build (g : bytes) : option glob_re :=
  if has_ignorecase g then glob_compile true (skipn (length ignorecase) g) else glob_compile false g.

(** 89 glob_re: does the argument contain a globbing character? *)
Definition is_special (c : ascii) : bool :=
  Ascii.eqb c c_star || Ascii.eqb c c_quest || Ascii.eqb c c_open || Ascii.eqb c c_bs.
Definition looks_like_glob (g : bytes) : bool := existsb is_special g || has_ignorecase g.

(** ** Selection functions *)
Inductive pred : Type := PDev | PSym | PSock | PFifo | PSpecial.
Inductive sf : Type :=
| SfAll (inc : bool)                                  (* "**", 650-653 *)
| SfTuple (t : idx) (inc : bool)                      (* 690-714 *)
| SfGlob (g : glob_re) (inc : bool)                   (* 716-763 *)
| SfRegexp (search : bytes -> bool) (inc : bool)      (* 517-543 *)
| SfPresence (name : bytes) (inc : bool)              (* 545-570 *)
| SfPred (p : pred) (inc : bool)                      (* 572-616 *)
| SfSize (size : Z) (ismax : bool)                    (* 618-640 *)
| SfOtherFs (rootdev : Z) (inc : bool)                (* 497-515 *)
| SfFilelist (l : list (idx * bool)) (excl : bool) (i : nat).  (* 360-394; excl = sf.exclude, i = i[0] *)

(** the attributes sf.check_filename and sf.exclude *)
Definition check_filename (f : sf) : bool :=
  match f with
  | SfAll _ | SfTuple _ _ | SfGlob _ _ | SfRegexp _ _ => true
  | _ => false
  end.
Definition sf_exclude (f : sf) : bool :=
  match f with
  | SfAll inc | SfTuple _ inc | SfGlob _ inc | SfRegexp _ inc | SfPresence _ inc
  | SfPred _ inc | SfOtherFs _ inc => negb inc
  | SfSize _ _ => true
  | SfFilelist _ e _ => e
  end.

(** 440-474 _filelist_pair_match: (include, move_on) *)
Definition pair_match (i : idx) (pair : idx * bool) : option bool * bool :=
  let '(index, include) := pair in
  if include then
    if idx_ltb index i then (None, true)
    else if idx_eqb index i then (Some true, true)
    else if is_prefix i index then (Some true, false)
    else (None, false)
  else
    if is_prefix index i then (Some false, false)
    else if idx_ltb index i then (None, true)
    else (None, false).

(** 378-388: the loop from the cursor on; [l] is what remains of the list *)
Fixpoint filelist_loop (i : idx) (l : list (idx * bool)) (cur : nat) : option bool * nat :=
  match l with
  | [] => (None, cur)
  | p :: r =>
      let '(include, move_on) := pair_match i p in
      if move_on then
        match include with
        | None => filelist_loop i r (S cur)
        | Some b => (Some b, S cur)
        end
      else (include, cur)
  end.

Inductive sres : Type := Says (v : option verdict) | Raises.
Definition of_bool (b : bool) : verdict := if b then Include else Exclude.
Definition says_if (c : bool) (inc : bool) : sres := Says (if c then Some (of_bool inc) else None).

Definition eval_pred (p : pred) (rp : srp) : bool :=
  match p with
  | PDev => rp_isdev rp
  | PSym => rp_issym rp
  | PSock => rp_issock rp
  | PFifo => rp_isfifo rp
  | PSpecial => rp_issym rp || rp_issock rp || rp_isfifo rp || rp_isdev rp
  end.

Section Calls.
Variable c : sctx.

Definition call (f : sf) (rp : srp) : sres * sf :=
  match f with
  | SfAll inc => (Says (Some (of_bool inc)), f)
  | SfTuple t inc =>
      (if inc then says_if (is_prefix (rp_index rp) t || is_prefix t (rp_index rp)) true
       else says_if (is_prefix t (rp_index rp)) false, f)
  | SfGlob g inc =>
      (if glob_hit g (rp_path rp) then Says (Some (of_bool inc))
       else if inc && scan_hit g (rp_path rp) then Says (Some Doscan)
       else Says None, f)
  | SfRegexp search inc => (says_if (search (rp_path rp)) inc, f)
  | SfPresence name inc =>
      (if rp_isdir rp && rp_readable rp && c_present c (rp_index rp) name then Says (Some (of_bool inc))
       else if inc && negb (rp_isdir rp) && c_present c (removelast (rp_index rp)) name
       then Says (Some Include)
       else Says None, f)
  | SfPred p inc => (says_if (eval_pred p rp) inc, f)
  | SfSize size ismax =>   (* `(getsize() <= size) and None`: False counts as EXCLUDE *)
      (match rp_isreg rp with
       | None => Says None
       | Some n => if (if ismax then n <=? size else size <=? n) then Says None else Says (Some Exclude)
       end, f)
  | SfOtherFs rootdev inc =>
      (match rp_data rp with
       | None => Raises                       (* KeyError: data["devloc"], rpath.py:374-376 *)
       | Some i => says_if (negb (fi_dev i =? rootdev)) inc
       end, f)
  | SfFilelist l e i =>
      let '(r, i') := filelist_loop (rp_index rp) (skipn i l) i in
      (Says (option_map of_bool r), SfFilelist l e i')
  end.

(** 140-151 select_default; 125-138 _select_filename: the same loop but for the
    test before each function ([byname]).  [None]: exception. *)
Fixpoint sel_loop (byname : bool) (rp : srp) (fs : list sf) (scanned : verdict) : option verdict * list sf :=
  match fs with
  | [] => (Some Include, [])
  | f :: fs' =>
      if byname && negb (check_filename f) && negb (sf_exclude f) then (Some Include, fs)
      else
        let '(r, f') := call f rp in
        match r with
        | Raises => (None, f' :: fs')
        | Says (Some Include) => (Some Include, f' :: fs')
        | Says (Some Exclude) => (Some scanned, f' :: fs')
        | Says (Some Doscan) => let '(o, fs2) := sel_loop byname rp fs' Doscan in (o, f' :: fs2)
        | Says None => let '(o, fs2) := sel_loop byname rp fs' scanned in (o, f' :: fs2)
        end
  end.
Definition select_default (fs : list sf) (rp : srp) := sel_loop false rp fs Exclude.
Definition select_filename (fs : list sf) (rp : srp) := sel_loop true rp fs Exclude.
End Calls.

(** ** Parsing the options *)

(** 390-422 _filelist_read, _filelist_parse_line; lines outside of the base are
    ignored; [null_sep] is --null-separator *)
Fixpoint rstrip_cr (s : bytes) : bytes :=
  match s with
  | [] => []
  | c :: r =>
      match rstrip_cr r with
      | [] => if Ascii.eqb c (chr 13) then [] else [c]
      | r' => c :: r'
      end
  end.
Definition plus_minus (line : bytes) (inc : bool) : bytes * bool :=
  if starts_with (bs "+ ") line then (skipn 2 line, true)
  else if starts_with (bs "- ") line then (skipn 2 line, false)
  else (line, inc).
Definition list_lines (null_sep : bool) (content : bytes) : list bytes :=
  filter nonempty (map rstrip_cr (split_on (if null_sep then chr 0 else nl) content)).
Fixpoint filelist_read (c : sctx) (inc : bool) (lines : list bytes) : list (idx * bool) :=
  match lines with
  | [] => []
  | line :: r =>
      let '(name, b) := plus_minus line inc in
      match relative_index c name with
      | Some i => (i, b) :: filelist_read c inc r
      | None => filelist_read c inc r
      end
  end.

(** tuple_list.sort(): pairs compared lexicographically, False < True *)
Definition pair_cmp (x y : idx * bool) : comparison :=
  match idx_cmp (fst x) (fst y) with
  | Eq => match snd x, snd y with
          | false, true => Lt | true, false => Gt | _, _ => Eq
          end
  | r => r
  end.
Fixpoint insert_pair (x : idx * bool) (l : list (idx * bool)) : list (idx * bool) :=
  match l with
  | [] => [x]
  | y :: r => match pair_cmp x y with Gt => y :: insert_pair x r | _ => x :: l end
  end.
Fixpoint sort_pairs (l : list (idx * bool)) : list (idx * bool) :=
  match l with [] => [] | x :: r => insert_pair x (sort_pairs r) end.

(** 355-388 _filelist_get_sf *)
Definition filelist_sf (c : sctx) (null_sep : bool) (content : bytes) (inc : bool) : sf :=
  let l := filelist_read c inc (list_lines null_sep content) in
  SfFilelist (sort_pairs l) (existsb (fun p => negb (snd p)) l || negb inc) 0.

(** Options (_init_parsing_mapping 202-239). *)
Inductive sopt : Type :=
| OGlob (g : bytes) (inc : bool)                (* --include / --exclude *)
| ORegexp (search : bytes -> bool) (inc : bool)
| OPresent (name : bytes) (inc : bool)
| OPred (p : pred) (inc : bool)
| OSize (size : Z) (ismax : bool)
| OOtherFs
| OFilelist (content : bytes) (inc : bool)
| OGlobFilelist (content : bytes) (inc : bool).

(** the root itself: [self.rpath] *)
Definition root_srp (c : sctx) (i : finfo) : srp := mk_srp [] (path_of c []) (Some i).

(** 642-669 _glob_get_sf, 671-680, 716-763; [None]: FatalError *)
Definition glob_sf (c : sctx) (g : bytes) (inc : bool) : option sf :=
  if beq_bytes g (bs "**") then Some (SfAll inc)
  else if negb (looks_like_glob g) then option_map (fun t => SfTuple t inc) (relative_index c g)
  else match glob_build g with
       | None => None
       | Some r => if glob_hit r (path_of c []) || scan_hit r (path_of c []) then Some (SfGlob r inc) else None
       end.

Definition opt_sfs (c : sctx) (root : finfo) (null_sep : bool) (o : sopt) : option (list sf) :=
  match o with
  | OGlob g inc => option_map (fun f => [f]) (glob_sf c g inc)
  | ORegexp s inc => Some [SfRegexp s inc]
  | OPresent n inc => Some [SfPresence n inc]
  | OPred p inc => Some [SfPred p inc]
  | OSize n m => if 0 <? n then Some [SfSize n m] else None
  | OOtherFs => Some [SfOtherFs (fi_dev root) false]
  | OFilelist s inc => Some [filelist_sf c null_sep s inc]
  | OGlobFilelist s inc =>
      all_some (map (fun line => let '(g, b) := plus_minus line inc in glob_sf c g b) (list_lines null_sep s))
  end.

Fixpoint concat_some {A} (l : list (option (list A))) : option (list A) :=
  match l with
  | [] => Some []
  | Some x :: r => option_map (app x) (concat_some r)
  | None :: _ => None
  end.

(** 343-349 _parse_last_excludes, 196-200 parse_rbdir_exclude *)
Definition rbdir : bytes := bs "rdiff-backup-data".
Definition rbdir_sf : sf := SfTuple [rbdir] false.
Fixpoint last_excludes (fs : list sf) : bool :=
  match fs with [] => true | [f] => sf_exclude f | _ :: r => last_excludes r end.

(** 153-194 parse_selection_args; [None]: the program stops with an error *)
Definition parse_selection_args (c : sctx) (root : finfo) (null_sep : bool) (opts : list sopt) : option (list sf) :=
  match concat_some (map (opt_sfs c root null_sep) opts) with
  | Some fs => if last_excludes fs then Some (rbdir_sf :: fs) else None
  | None => None
  end.

(** ** Iterating over a directory tree: _iterate_rpath (241-299) *)
Inductive ftree : Type := FT (i : finfo) (ch : list (bytes * ftree)).
Definition t_info (t : ftree) : finfo := let 'FT i _ := t in i.
Definition t_ch (t : ftree) : list (bytes * ftree) := let 'FT _ ch := t in ch.
Definition t_isdir (t : ftree) : bool := match fi_kind (t_info t) with KDir _ => true | _ => false end.
Definition t_gone (t : ftree) : bool := match fi_kind (t_info t) with KGone => true | _ => false end.

(** 313-322 _listdir_sorted; a directory which cannot be listed is one without
    children *)
Fixpoint insert_name (x : bytes * ftree) (l : list (bytes * ftree)) : list (bytes * ftree) :=
  match l with
  | [] => [x]
  | y :: r => match bytes_cmp (fst x) (fst y) with Gt => y :: insert_name x r | _ => x :: l end
  end.
Fixpoint sort_names (l : list (bytes * ftree)) : list (bytes * ftree) :=
  match l with [] => [] | x :: r => insert_name x (sort_names r) end.

Section Iterate.
Variable c : sctx.

Definition minimal_rp (i : idx) : srp := mk_srp i (path_of c i) None.
Definition real_rp (i : idx) (t : ftree) : srp := mk_srp i (path_of c i) (Some (t_info t)).

(** one [next(diryield)] : the generator is the directory's index and the entries
    still to come *)
Inductive gen_res : Type :=
| GStop (fs : list sf)
| GRaise
| GYield (i : idx) (t : ftree) (v : verdict) (rest : list (bytes * ftree)) (fs : list sf).

Fixpoint gen_next (fs : list sf) (d : idx) (l : list (bytes * ftree)) : gen_res :=
  match l with
  | [] => GStop fs
  | (n, t) :: r =>
      let i := d ++ [n] in
      match select_filename c fs (minimal_rp i) with
      | (None, _) => GRaise
      | (Some Exclude, fs1) => gen_next fs1 d r
      | (Some _, fs1) =>
          if t_gone t then gen_next fs1 d r
          else match select_default c fs1 (real_rp i t) with
               | (None, _) => GRaise
               | (Some Include, fs2) => GYield i t Include r fs2
               | (Some Doscan, fs2) => if t_isdir t then GYield i t Doscan r fs2 else gen_next fs2 d r
               | (Some Exclude, fs2) => gen_next fs2 d r
               end
      end
  end.

(** the main loop: diryield_stack (top first), delayed_rp_stack (oldest first) *)
Record iter_st : Type := mk_iter {
  it_stack : list (idx * list (bytes * ftree));
  it_delayed : list (idx * ftree);
  it_fs : list sf }.

Inductive step_res : Type :=
| SDone | SRaise
| SStep (out : list (idx * ftree)) (s : iter_st).

Definition iter_step (s : iter_st) : step_res :=
  match it_stack s with
  | [] => SDone
  | (d, l) :: st =>
      match gen_next (it_fs s) d l with
      | GRaise => SRaise
      | GStop fs => SStep [] (mk_iter st (removelast (it_delayed s)) fs)
      | GYield i t Include r fs =>
          SStep (it_delayed s ++ [(i, t)])
                (mk_iter (if t_isdir t then (i, sort_names (t_ch t)) :: (d, r) :: st else (d, r) :: st) [] fs)
      | GYield i t Doscan r fs =>
          SStep [] (mk_iter ((i, sort_names (t_ch t)) :: (d, r) :: st) (it_delayed s ++ [(i, t)]) fs)
      | GYield i t Exclude r fs =>      (* not yielded by diryield *)
          SStep [] (mk_iter ((d, r) :: st) (it_delayed s) fs)
      end
  end.

(** [None]: not finished after [n] steps; [Some None]: exception *)
Fixpoint iter_run (n : nat) (s : iter_st) : option (option (list (idx * ftree))) :=
  match n with
  | O => None
  | S n' =>
      match iter_step s with
      | SDone => Some (Some [])
      | SRaise => Some None
      | SStep out s' =>
          match iter_run n' s' with
          | Some (Some l) => Some (Some (out ++ l))
          | r => r
          end
      end
  end.

(** 275-279 and get_select_iter (114-123): the root is always yielded *)
Definition select_iter (n : nat) (fs : list sf) (root : ftree) : option (option (list (idx * ftree))) :=
  if t_isdir root then
    match iter_run n (mk_iter [([], sort_names (t_ch root))] [] fs) with
    | Some (Some l) => Some (Some (([], root) :: l))
    | r => r
    end
  else Some (Some [([], root)]).
End Iterate.

(** ** FilterIter (839-940): filtering a listing already made

    State of _FilterIterITRB: [f_excl] is branch_excluded of the branches
    (innermost first), [f_queue] the shared base_queue, [f_out] rorp_cache. *)
Section Filter.
Variable c : sctx.
Notation item := (idx * finfo)%type.

Record flt : Type := mk_flt {
  f_excl : list bool;
  f_queue : list item;
  f_out : list item;
  f_fs : list sf }.

(** 928-936 the while/else loop on base_queue, seen from its end *)
Fixpoint requeue_rev (x : item) (q : list item) : list item :=
  match q with
  | [] => [x]
  | y :: q' => if idx_eqb (fst y) (removelast (fst x)) then x :: y :: q' else requeue_rev x q'
  end.
Definition requeue (x : item) (q : list item) : list item := rev (requeue_rev x (rev q)).

Definition item_rp (x : item) : srp := mk_srp (fst x) (path_of c (fst x)) (Some (snd x)).
Definition item_dir (x : item) : bool := match fi_kind (snd x) with KDir _ => true | _ => false end.

(** the calls made by IterTreeReducer; [None]: exception *)
Definition flt_event (s : flt) (e : itr_event (A := item)) : option flt :=
  match e with
  | Fast x =>                                             (* 907-919 *)
      if match f_excl s with b :: _ => b | [] => false end then Some s
      else match select_default c (f_fs s) (item_rp x) with
           | (Some Include, fs) => Some (mk_flt (f_excl s) [] (f_out s ++ f_queue s ++ [x]) fs)
           | (Some Exclude, fs) => Some (mk_flt (f_excl s) (f_queue s) (f_out s) fs)
           | _ => None                                    (* ValueError *)
           end
  | Start x =>                                            (* 921-938 *)
      match select_default c (f_fs s) (item_rp x) with
      | (Some Exclude, fs) => Some (mk_flt (true :: f_excl s) (f_queue s) (f_out s) fs)
      | (Some Include, fs) => Some (mk_flt (false :: f_excl s) [] (f_out s ++ f_queue s ++ [x]) fs)
      | (Some Doscan, fs) => Some (mk_flt (false :: f_excl s) (requeue x (f_queue s)) (f_out s) fs)
      | (None, _) => None
      end
  | End _ => Some (mk_flt (tl (f_excl s)) (f_queue s) (f_out s) (f_fs s))
  end.
Fixpoint flt_events (s : flt) (ev : list (itr_event (A := item))) : option flt :=
  match ev with
  | [] => Some s
  | e :: r => match flt_event s e with Some s' => flt_events s' r | None => None end
  end.
Definition filter_iter (fs : list sf) (l : list item) : option (list item) :=
  match itr_run fst (fun x => negb (item_dir x)) l itr_init with
  | Some ev => option_map f_out (flt_events (mk_flt [] [] [] fs) ev)
  | None => None
  end.
End Filter.
