(** * Verification and comparison
    (src/rdiffbackup/locations/_repo_shadow.py: verify, _attach_files;
     src/rdiffbackup/locations/_dir_shadow.py: compare_meta, compare_hash, compare_full;
     src/rdiffbackup/actions/compare.py: _print_reports) *)
From Coq Require Import List ZArith Bool Ascii.
From Verif Require Import Base M_Iter M_Hardlinks M_CopyFile.
Import List ListNotations.
Local Open Scope Z_scope.

(** singletons/consts.py:30-34 *)
Definition RET_OK : Z := 0.
Definition RET_FILE_ERR : Z := 4.
Definition RET_FILE_WARN : Z := 8.

Section Verify.
Variable sha1 : bytes -> bytes.

(** _repo_shadow.py:1535-1565, the loop of verify.  An entry of the listing comes with what
    reading the file from the repository gives (rf_cache.get_fp: pieces, all but the end of
    the file not empty); [None]: an exception which isn't caught.  "if not verify_sha1": an
    empty checksum counts as none.  Result: return code, bad files, files without
    checksum *)
Fixpoint verify_loop (t : table) (l : list (lfile * option (list bytes))) (code : Z) (bad nohash : nat)
  : option (Z * nat * nat) :=
  match l with
  | [] => Some (code, bad, nohash)
  | (x, data) :: r =>
      if negb (f_reg x) then verify_loop t r code bad nohash
      else
        let '(h, t') := get_hash t x in
        match h with
        | None | Some [] => verify_loop t' r (Z.lor code RET_FILE_WARN) bad (S nohash)
        | Some h =>
            match data with
            | None => None
            | Some chunks =>
                if beq_bytes (compute_sha1_fp sha1 chunks) h then verify_loop t' r code bad nohash
                else verify_loop t' r (Z.lor code RET_FILE_ERR) (S bad) nohash
            end
        end
  end.
(** 1521-1588 verify *)
Definition verify (l : list (lfile * option (list bytes))) : option Z :=
  match verify_loop [] l RET_OK 0 0 with Some (code, _, _) => Some code | None => None end.

(** ** Comparison *)
Section Compare.
Context {attr : Type}.
(** A file of the source or of the repository: [c_link] holds index, type, links and
    checksum; [c_data]: its bytes, [None] if they cannot be read (source) or were not
    attached (repository) *)
Record cfile : Type := mk_cfile {
  c_link : lfile; c_exists : bool; c_size : Z; c_attr : attr; c_data : option bytes }.
Definition c_index (x : cfile) : idx := f_index (c_link x).
Definition c_reg (x : cfile) : bool := f_reg (c_link x).
(** RORPath.__eq__ of the source file and the recorded one (M_Rorp.rorp_eq) *)
Variable eqr : cfile -> cfile -> bool.

Inductive reason : Type := RNew | RDeleted | RChanged | RBoth (meta_changed data_changed : bool).

(** _dir_shadow.py:238-278 _get_basic_report; [data_changed]: what comp_data_func would
    return, if there is one.  [None]: nothing to report *)
Definition basic_report (src repo : option cfile) (data_changed : option bool) : option reason :=
  let there x := match x with Some f => c_exists f | None => false end in
  match src, repo with
  | Some s, Some r =>
      if negb (there repo) then Some RNew
      else if negb (there src) then Some RDeleted
      else match data_changed with
           | Some d =>
               if c_reg s && c_reg r then
                 if eqr s r && negb d then None else Some (RBoth (negb (eqr s r)) d)
               else if eqr s r then None else Some RChanged
           | None => if eqr s r then None else Some RChanged
           end
  | _, _ => if negb (there repo) then Some RNew else Some RDeleted
  end.
Definition pair_index (src repo : option cfile) : idx :=
  match src, repo with Some s, _ => c_index s | None, Some r => c_index r | None, None => [] end.
Definition report1 (i : idx) (r : option reason) : list (idx * reason) :=
  match r with Some x => [(i, x)] | None => [] end.

(** 171-180 compare_meta *)
Definition compare_meta (src repo : list cfile) : list (idx * reason) :=
  flat_map (fun p => report1 (pair_index (fst p) (snd p)) (basic_report (fst p) (snd p) None))
           (collate2 c_index c_index src repo).

(** 184-212 compare_hash; the data function is called for two existing regular files only
    ([None]: exception while reading the source) *)
Definition called (src repo : option cfile) : bool :=
  match src, repo with
  | Some s, Some r => c_exists r && c_exists s && c_reg s && c_reg r
  | _, _ => false
  end.
Definition hashes_changed (h : option bytes) (s r : cfile) : option bool :=
  match h with
  | None | Some [] => Some false
  | Some h =>
      if c_size s =? c_size r then
        match c_data s with
        | None => None
        | Some d => Some (negb (beq_bytes (sha1 d) h))
        end
      else Some true
  end.
Fixpoint compare_hash_loop (t : table) (l : list (option cfile * option cfile)) : option (list (idx * reason)) :=
  match l with
  | [] => Some []
  | (src, repo) :: rest =>
      match src, repo with
      | Some s, Some r =>
          if called src repo then
            let '(h, t') := get_hash t (c_link r) in
            match hashes_changed h s r, compare_hash_loop t' rest with
            | Some d, Some l' => Some (report1 (pair_index src repo) (basic_report src repo (Some d)) ++ l')
            | _, _ => None
            end
          else match compare_hash_loop t rest with
               | Some l' => Some (report1 (pair_index src repo) (basic_report src repo None) ++ l')
               | None => None
               end
      | _, _ =>
          match compare_hash_loop t rest with
          | Some l' => Some (report1 (pair_index src repo) (basic_report src repo None) ++ l')
          | None => None
          end
      end
  end.
Definition compare_hash (src repo : list cfile) : option (list (idx * reason)) :=
  compare_hash_loop [] (collate2 c_index c_index src repo).

(** _repo_shadow.py:1490-1519 _attach_files: [content] is what the repository holds for a
    file.  The second iterator no longer knows whether the source selects the file. *)
Variable content : cfile -> bytes.
Definition with_data (r : cfile) (d : option bytes) : cfile :=
  mk_cfile (c_link r) (c_exists r) (c_size r) (c_attr r) d.
Definition deleted_at (s : cfile) : cfile :=
  mk_cfile (c_link s) false (c_size s) (c_attr s) None.
Definition attach (src repo : option cfile) : list cfile :=
  match src, repo with
  | Some s, Some r =>
      if negb (c_reg s) && eqr s r then []
      else if c_reg s && c_reg r && (c_size s =? c_size r) then [with_data r (Some (content r))]
      else [with_data r None]
  | None, Some r => [with_data r None]
  | Some s, None => [deleted_at s]
  | None, None => []
  end.
(** _dir_shadow.py:224-227 data_changed: [None]: AttributeError because nothing is
    attached; a source which cannot be read counts as changed *)
Definition data_changed (s r : cfile) : option bool :=
  if negb (c_size s =? c_size r) then Some true
  else match c_data s, c_data r with
       | None, _ => Some true
       | Some _, None => None
       | Some a, Some b => Some (negb (beq_bytes a b))
       end.
(** 215-236 compare_full; [disk]: the source directory, whatever is selected *)
Fixpoint compare_full_loop (disk : idx -> option cfile) (l : list cfile) : option (list (idx * reason)) :=
  match l with
  | [] => Some []
  | r :: rest =>
      let src := disk (c_index r) in
      let d := match src with
               | Some s => if called src (Some r) then option_map Some (data_changed s r) else Some None
               | None => Some None
               end in
      match d, compare_full_loop disk rest with
      | Some d, Some l' => Some (report1 (c_index r) (basic_report src (Some r) d) ++ l')
      | _, _ => None
      end
  end.
Definition compare_full (disk : idx -> option cfile) (src repo : list cfile) : option (list (idx * reason)) :=
  compare_full_loop disk (flat_map (fun p => attach (fst p) (snd p)) (collate2 c_index c_index src repo)).

(** actions/compare.py:163-199 _print_reports *)
Definition print_reports (l : list (idx * reason)) : Z :=
  match l with [] => RET_OK | _ => RET_FILE_WARN end.
End Compare.
End Verify.
