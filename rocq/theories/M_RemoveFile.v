(** * rdiff-backup remove file
    /repo/src/rdiffbackup/locations/_repo_shadow.py:1252-1400 (META_FILES, remove_file,
    _remove_from_metadata).  Log messages and the compression of the files are left out.  The
    repository is what these functions see of it: the contents of the metadata files, and the
    existing paths below the increments directory, below the mirror and below the directory
    of long names. *)
From Coq Require Import List ZArith Bool Ascii Lia.
From Verif Require Import Base M_Iter M_Quoting M_Time M_IncName M_Meta M_EaAcl.
Import List ListNotations.
Local Open Scope Z_scope.

(** the successive results of readline(), without the empty one at the end *)
Fixpoint rlines (s : bytes) : list bytes :=
  match s with
  | [] => []
  | c :: r =>
      if Ascii.eqb c nl then [nl] :: rlines r
      else match rlines r with [] => [[c]] | l :: ls => (c :: l) :: ls end
  end.

(** 1252-1288 META_FILES: the kinds of metadata files, with the start of a record, the quoting
    of paths and the test for a line about the path or something below *)
Inductive mkind : Type := FileStatistics | MirrorMetadata | ExtendedAttributes | AccessControlLists | WinAccessControlLists.
Definition marker (k : mkind) : bytes :=
  match k with FileStatistics => [] | MirrorMetadata => bs "File " | _ => bs "# file: " end.
Definition quote_fn (k : mkind) : bytes -> bytes :=
  match k with FileStatistics | MirrorMetadata => quote_path | _ => acl_quote end.
Definition unquote_fn (k : mkind) : bytes -> bytes :=
  match k with FileStatistics | MirrorMetadata => unquote_path | _ => acl_unquote end.
Definition matches (k : mkind) (qpath line : bytes) : bool :=
  match k with
  | FileStatistics => starts_with (qpath ++ bs " ") line || starts_with (qpath ++ bs "/") line
  | _ => beq_bytes line (marker k ++ qpath ++ [nl]) || starts_with (marker k ++ qpath ++ bs "/") line
  end.

(** 1357-1362: the lines which name a file in the directory of long names, and the name:
    line.strip(newline).rsplit(space, 1)[1] *)
Definition is_alt (line : bytes) : bool :=
  starts_with (bs "  AlternateIncrementName ") line || starts_with (bs "  AlternateMirrorName ") line.
Fixpoint drop_nl (s : bytes) : bytes :=
  match s with c :: r => if Ascii.eqb c nl then drop_nl r else s | [] => [] end.
Definition strip_nl (s : bytes) : bytes := rev (drop_nl (rev (drop_nl s))).
Definition alt_of (k : mkind) (line : bytes) : bytes :=
  unquote_fn k (last (split_on (chr 32) (strip_nl line)) []).

(** 1350-1389: the two nested loops, as one with the flag [skipping] for the inner one.
    Result: the lines written, whether something was removed, the alternate names met *)
Fixpoint rm_loop (k : mkind) (qpath : bytes) (skipping : bool) (ls : list bytes) : list bytes * bool * list bytes :=
  match ls with
  | [] => ([], false, [])
  | l :: r =>
      if skipping && negb (starts_with (marker k) l) then
        let '(kept, any, alts) := rm_loop k qpath true r in
        (kept, any, if is_alt l then alt_of k l :: alts else alts)
      else if starts_with (marker k) l && matches k qpath l then
        let '(kept, _, alts) := rm_loop k qpath true r in (kept, true, alts)
      else
        let '(kept, any, alts) := rm_loop k qpath false r in (l :: kept, any, alts)
  end.
(** 1333-1398 _remove_from_metadata: the new contents, anything_removed, alternate names *)
Definition remove_from_metadata (dry : bool) (k : mkind) (p : idx) (content : bytes) : bytes * bool * list bytes :=
  let '(kept, any, alts) := rm_loop k (quote_fn k (index_path p)) false (rlines content) in
  (if dry || negb any then content else concat kept, any, alts).

(** rpath.py:949-971 delete: the path and everything below *)
Definition delete_tree (q : idx) (area : list idx) : list idx := filter (fun x => negb (is_prefix q x)) area.
(** listdir *)
Definition names_in (d : idx) (area : list idx) : list bytes :=
  flat_map (fun x => match rev x with
                     | n :: d' => if idx_eqb (rev d') d then [n] else []
                     | [] => []
                     end) area.
(** increment.py:32-53 get_incfiles_list of a path *)
Definition incfiles_of (q : idx) (area : list idx) : list idx :=
  map (fun nt => removelast q ++ [fst nt]) (incfiles_list (last q []) None None (names_in (removelast q) area)).
Definition lstat (q : idx) (area : list idx) : bool := existsb (idx_eqb q) area.
Definition delete_all (l : list idx) (area : list idx) : list idx := fold_left (fun a q => delete_tree q a) l area.

Record rrepo : Type := mk_rrepo {
  rr_meta : list (mkind * bytes);   (* every metadata file *)
  rr_incs : list idx;               (* paths below rdiff-backup-data/increments *)
  rr_mirror : list idx;             (* paths of the mirror *)
  rr_long : list idx }.             (* paths below rdiff-backup-data/long_filename_data *)

(** 1302-1311 and 1363-1382: the increments of a path and the path itself (lstat() is the
    state when the path object was made) *)
Definition remove_with_incs (q : idx) (area : list idx) : list idx :=
  let area' := delete_all (incfiles_of q area) area in
  if lstat q area then delete_tree q area' else area'.

(** 1297-1300: all metadata files *)
Definition clean_metadata (dry : bool) (p : idx) (l : list (mkind * bytes)) : list (mkind * bytes) * bool * list bytes :=
  let res := map (fun kc => (fst kc, remove_from_metadata dry (fst kc) p (snd kc))) l in
  (map (fun x => (fst x, fst (fst (snd x)))) res, existsb (fun x => snd (fst (snd x))) res,
   flat_map (fun x => snd (snd x)) res).

(** 1290-1331 remove_file; the second component: RET_CODE_OK (else RET_CODE_WARN) *)
Definition remove_file (dry : bool) (p : idx) (r : rrepo) : rrepo * bool :=
  let '(meta, any, alts) := clean_metadata dry p (rr_meta r) in
  let removed := any || negb (match incfiles_of p (rr_incs r) with [] => true | _ => false end)
                 || lstat p (rr_incs r) || lstat p (rr_mirror r) in
  (if dry then r else
     mk_rrepo meta (remove_with_incs p (rr_incs r))
              (if lstat p (rr_mirror r) then delete_tree p (rr_mirror r) else rr_mirror r)
              (fold_left (fun a n => remove_with_incs [n] a) alts (rr_long r)),
   removed).

(** /repo/src/rdiffbackup/actions/remove.py:112-131: which paths are accepted: not the
    repository itself, nothing with rdiff-backup-data in it *)
Definition may_remove (p : idx) : bool :=
  match p with [] => false | _ => negb (existsb (beq_bytes (bs "rdiff-backup-data")) p) end.
