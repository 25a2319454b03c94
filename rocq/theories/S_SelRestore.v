(** * C75: sessions whose source is what the selection options choose *)
From Coq Require Import List ZArith Bool Ascii.
From Verif Require Import Base M_Iter P_Iter M_Core M_Global M_Select S_Select.
Import List ListNotations.

(** A selection: the base directory and the like, the options, the file tree as found. *)
Record selection := mk_selection {
  s_ctx : sctx; s_null : bool; s_opts : list sopt; s_root : ftree }.

(** The options are accepted and tame (S_Select), the tree has no directory with the same
    name twice. *)
Definition proper (s : selection) (fs : list sf) : Prop :=
  parse_selection_args (s_ctx s) (t_info (s_root s)) (s_null s) (s_opts s) = Some fs /\
  Forall tame fs /\ wf_tree (s_root s).

(** What is selected: the root, and what the options choose below it. *)
Definition is_selected (s : selection) (fs : list sf) (p : idx) (t : ftree) : Prop :=
  (p = [] /\ t = s_root s) \/
  (t_isdir (s_root s) = true /\ chosen (decide (s_ctx s) fs) [] (t_ch (s_root s)) p t).

(** The source tree of a session is what the program's iteration yields, each file in the
    state it is found. *)
Definition source_of {attr} (s : selection) (fs : list sf) (state : idx -> ftree -> node attr) (src : @tree attr) : Prop :=
  exists n out, select_iter (s_ctx s) n fs (s_root s) = Some (Some out) /\
    src = map (fun x => (fst x, state (fst x) (snd x))) out.

(** Options which only exclude: globs, file types, sizes, lists of files and
    of globs; not regular
    expressions and markers (--exclude-if-present), which exclude a directory without
    excluding what lies in it. *)
Definition excluding (c : sctx) (ns : bool) (o : sopt) : Prop :=
  match o with
  | OGlob _ inc | OPred _ inc => inc = false
  | OSize _ _ => True
  | OFilelist content inc => inc = false /\ forall e, In e (filelist_read c false (list_lines ns content)) -> snd e = false
  | OGlobFilelist content inc => forall line, In line (list_lines ns content) -> snd (plus_minus line inc) = false
  | _ => False
  end.
Definition info_of (x : idx * ftree) : idx * finfo := (fst x, t_info (snd x)).
