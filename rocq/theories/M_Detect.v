(** * Finding out what a file system can

    - src/rdiffbackup/locations/fs_abilities.py:63-72 FSAbilities, 127-192 _detect_readonly,
      _detect_readwrite, 194-764 the single tests
    - src/rdiff_backup/rpath.py:1062-1088 get_temp_rpath, 1331-1339 _get_next_tempfile_name
    - src/rdiffbackup/locations/_repo_shadow.py:212-236 (no quoting without chars_to_quote)

    and the file systems which are looked at: which names they take and which names they
    take for the same file.

    Simplifications: a test file is only a name; POSIX and Windows ACLs, resource forks,
    Carbon, fsync of directories and the permissions of symbolic links are single answers of
    the file system (only their test files are modelled); a deletion is visible at once. *)
From Coq Require Import List NArith Bool Ascii.
From Verif Require Import Base M_Quoting.
Import List ListNotations.
Local Open Scope N_scope.

(** ** File systems *)
(** capitals: distinguished, ASCII ones not, or anything else taken for the same *)
Inductive folding : Type := Exact | AsciiCase | Other (g : bytes -> bytes).
Definition fold_name (k : folding) (n : bytes) : bytes :=
  match k with Exact => n | AsciiCase => map lower n | Other g => g n end.
(** spaces and periods at the end of names *)
Inductive ending : Type := Keep | Strip | Refuse.
Record fs : Type := mk_fs {
  f_case : folding;             (* names equal after this are the same file *)
  f_end : ending;
  f_ext : bool;                 (* takes control characters and bytes from 128 on *)
  f_win : bool;                 (* refuses control and other characters like Windows *)
  f_dev : bool;                 (* con etc. are found in each directory *)
  f_chown : bool;               (* owners can be changed by the process *)
  f_link : bool;                (* hard links are possible, and seen to be the same file *)
  f_ea : bool; f_ea_same : bool;     (* extended attributes can be written; read back the same *)
  f_high_file : bool; f_high_dir : bool;   (* 07777 for files, for directories *)
  f_fork : bool; f_sym : bool }.

Definition win_refused : bytes := chr 34 :: bs "*/:<>?\|" ++ [chr 127].
Definition char_ok (f : fs) (c : ascii) : bool :=
  (f_ext f || ((32 <=? ord c) && (ord c <? 128)))
  && (negb (f_win f) || (negb (mem_byte c win_refused) && (32 <=? ord c))).
Definition blank (c : ascii) : bool := Ascii.eqb c (chr 32) || Ascii.eqb c (chr 46).
Fixpoint drop_blank (s : bytes) : bytes :=
  match s with c :: r => if blank c then drop_blank r else s | [] => [] end.
Definition strip_end (n : bytes) : bytes := rev (drop_blank (rev n)).
Definition ends_blank (n : bytes) : bool := match rev n with c :: _ => blank c | [] => false end.
(** the part before the first period *)
Fixpoint stem (n : bytes) : bytes :=
  match n with [] => [] | c :: r => if Ascii.eqb c (chr 46) then [] else c :: stem r end.
Definition device_stems : list bytes :=
  map bs ["con"; "aux"; "prn"; "nul"; "com0"; "com1"; "com2"; "com3"; "com4"; "com5"; "com6"; "com7"; "com8"; "com9";
          "lpt1"; "lpt2"; "lpt3"; "lpt4"; "lpt5"; "lpt6"; "lpt7"; "lpt8"; "lpt9"]%string.
Definition is_device (n : bytes) : bool := existsb (beq_bytes (map lower (stem n))) device_stems.
Definition empty (n : bytes) : bool := match n with [] => true | _ => false end.

Definition shown (f : fs) (n : bytes) : bytes := match f_end f with Strip => strip_end n | _ => n end.
Definition key (f : fs) (n : bytes) : bytes := fold_name (f_case f) (shown f n).
Definition same (f : fs) (a b : bytes) : bool := beq_bytes (key f a) (key f b).
(** can a file of this name be created? *)
Definition takes (f : fs) (n : bytes) : bool :=
  negb (empty (shown f n)) && forallb (char_ok f) n
  && (match f_end f with Refuse => negb (ends_blank n) | _ => true end)
  && negb (f_dev f && is_device n).

(** a directory: the names shown in it; lstat, open for writing, unlink *)
Definition exists_in (f : fs) (dir : list bytes) (n : bytes) : bool :=
  (f_dev f && is_device n) || existsb (same f n) dir.
Definition remove_from (f : fs) (dir : list bytes) (n : bytes) : list bytes :=
  filter (fun m => negb (same f n m)) dir.

(** ** Tests by writing *)
(** the test directory, and an exception in the third case *)
Inductive res (A : Type) : Type := Ok (a : A) (dir : list bytes) | Raise (dir : list bytes).
Arguments Ok {A}. Arguments Raise {A}.
Definition M (A : Type) : Type := list bytes -> res A.
Definition ret {A} (a : A) : M A := fun d => Ok a d.
Definition raise {A} : M A := fun d => Raise d.
Definition bind {A B} (m : M A) (k : A -> M B) : M B :=
  fun d => match m d with Ok a d' => k a d' | Raise d' => Raise d' end.
Notation "'do' x <- m ; k" := (bind m (fun x => k)) (at level 200, x name, m at level 100, k at level 200).
Notation "m ;; k" := (bind m (fun _ => k)) (at level 100, right associativity).
(** try ... except OSError *)
Definition catch {A} (m : M A) (h : M A) : M A :=
  fun d => match m d with Ok a d' => Ok a d' | Raise d' => h d' end.

Section Write.
Variable f : fs.
Definition touch (n : bytes) : M unit :=
  fun d => if takes f n then Ok tt (if exists_in f d n then d else d ++ [shown f n]) else Raise d.
Definition lstat (n : bytes) : M bool := fun d => Ok (exists_in f d n) d.
Definition delete (n : bytes) : M unit :=
  fun d => if existsb (same f n) d then Ok tt (remove_from f d n) else Raise d.
Definition may (b : bool) : M unit := if b then ret tt else raise.

(** 253-294 _detect_extended_filenames *)
Definition ORDINARY : bytes := bs "5-_ a.snapshot.gz".
Definition EXTENDED : bytes := bs "uni" ++ map chr [195; 161; 194; 132; 194; 137].
Definition detect_extended : M bool :=
  touch ORDINARY ;; delete ORDINARY ;;
  catch (touch EXTENDED ;; delete EXTENDED ;; ret true)
        (do e <- lstat EXTENDED ; (if e then delete EXTENDED else ret tt) ;; ret false).
(** 296-318 _detect_win_reserved_filenames *)
Definition RESERVED : bytes := chr 58 :: chr 92 :: [chr 34].
Definition detect_win : M bool :=
  catch (touch RESERVED ;; catch (delete RESERVED ;; ret false) (ret true))
        (do e <- lstat RESERVED ; (if e then delete RESERVED else ret tt) ;; ret true).
(** 350-373 _detect_case_sensitive_readwrite *)
Definition detect_case : M bool :=
  touch (bs "A") ;;
  do e <- lstat (bs "a") ;
  if e then delete (bs "a") ;; (do e' <- lstat (bs "A") ; if e' then raise else ret false)
  else delete (bs "A") ;; ret true.
(** 194-208 _detect_ownership *)
Definition detect_owner : M bool := touch (bs "foo") ;; (do r <- ret (f_chown f) ; delete (bs "foo") ;; ret r).
(** 210-235 _detect_hardlinks (nothing is deleted) *)
Definition detect_links : M bool := touch (bs "hl") ;; touch (bs "hardlinked_file1") ;; ret (f_link f).
(** 428-472 _detect_eas, writing *)
Definition detect_ea : M bool := catch (may (f_ea f) ;; ret (f_ea_same f)) (ret false).
(** 532-549 _detect_dir_inc_perms *)
Definition detect_inc_perms : M bool :=
  touch (bs "dir_inc_check") ;;
  catch (may (f_high_file f) ;; delete (bs "dir_inc_check") ;; ret true) (delete (bs "dir_inc_check") ;; ret false).
(** 571-591 _detect_resource_fork_readwrite *)
Definition detect_fork : M bool := touch (bs "regfile") ;; delete (bs "regfile") ;; ret (f_fork f).
(** 615-633 _detect_high_perms_readwrite; the directory is created by touch *)
Definition detect_high : M bool :=
  touch (bs "high_perms_file") ;; touch (bs "high_perms_dir") ;;
  (do r <- catch (may (f_high_file f) ;; may (f_high_file f) ;; ret true) (ret false) ;
   delete (bs "high_perms_file") ;; delete (bs "high_perms_dir") ;; ret r).
(** 635-650 _detect_symlink_perms *)
Definition detect_sym : M bool :=
  touch (bs "symlinked_file1") ;; touch (bs "symlinked_file2") ;; delete (bs "symlinked_file2") ;;
  delete (bs "symlinked_file1") ;; ret (f_sym f).
(** 652-680 _detect_escape_dos_devices *)
Definition detect_dos : M bool := lstat (bs "con").
(** 682-722 _detect_escape_trailing_spaces_readwrite *)
Definition detect_trailing : M bool :=
  do e <- lstat (bs "foo.") ;
  (if e then raise else ret tt) ;;
  touch (bs "foo") ;;
  do t <- lstat (bs "foo") ;
  (if t then ret tt else raise) ;;
  do p <- lstat (bs "foo.") ;
  do r <- (if p then ret true
           else catch (touch (bs "foo.") ;; (do p' <- lstat (bs "foo.") ; ret (negb p'))) (ret true)) ;
  delete (bs "foo") ;; ret r.

Record found : Type := mk_found {
  d_ext : bool; d_win : bool; d_case : bool; d_owner : bool; d_links : bool; d_ea : bool;
  d_inc : bool; d_fork : bool; d_high : bool; d_sym : bool; d_dos : bool; d_trail : bool }.
Definition tests : M found :=
  do ext <- detect_extended ; do win <- detect_win ; do cs <- detect_case ; do own <- detect_owner ;
  do ln <- detect_links ; do ea <- detect_ea ; do inc <- detect_inc_perms ; do fork <- detect_fork ;
  do high <- detect_high ; do sym <- detect_sym ; do dos <- detect_dos ; do tr <- detect_trailing ;
  ret (mk_found ext win cs own ln ea inc fork high sym dos tr).

(** rpath.py:1331-1339; the class variable _temp_file_index counts *)
Definition temp_name (i : N) : bytes := bs "rdiff-backup.tmp." ++ dec i.
Definition next_index (i : N) : N := if 100000000 <? i + 1 then 0 else i + 1.
(** 1062-1088 get_temp_rpath: the loop ends with the first name which doesn't exist;
    [None]: it doesn't end within [fuel] rounds *)
Fixpoint get_temp (fuel : nat) (dir : list bytes) (i : N) : option (bytes * N) :=
  match fuel with
  | O => None
  | S k => let j := next_index i in
           if exists_in f dir (temp_name j) then get_temp k dir j else Some (temp_name j, j)
  end.

(** 156-192 _detect_readwrite in a directory with the entries [root]; the entries afterwards,
    with those of the test directory *)
Definition detect_rw (fuel : nat) (root : list bytes) (i : N) : option found * list (bytes * list bytes) :=
  let plain := map (fun n => (n, [])) root in
  match get_temp fuel root i with
  | None => (None, plain)
  | Some (t, _) =>
      if takes f t then
        match tests [] with
        | Ok d _ => (Some d, plain)                    (* subdir.delete() with all in it *)
        | Raise d => (None, plain ++ [(t, d)])
        end
      else (None, plain)
  end.
End Write.

(** ** Tests by reading *)
(** directories have a file system each (mounts) *)
Inductive node : Type := Leaf | Dir (f : fs) (l : list (bytes * node)).

(** bytes.swapcase *)
Definition swap_char (c : ascii) : ascii :=
  if ((65 <=? ord c) && (ord c <=? 90)) then chr (ord c + 32)
  else if ((97 <=? ord c) && (ord c <=? 122)) then chr (ord c - 32) else c.
Definition swapcase (n : bytes) : bytes := map swap_char n.
(** 375-402 find_letter: the file system of the directory, its list, the name *)
Fixpoint find_letter (t : node) : option (fs * list bytes * bytes) :=
  match t with
  | Leaf => None
  | Dir f l =>
      (fix look (rest : list (bytes * node)) : option (fs * list bytes * bytes) :=
         match rest with
         | [] => None
         | (n, sub) :: r =>
             if negb (beq_bytes n (swapcase n)) then Some (f, map fst l, n)
             else match find_letter sub with Some x => Some x | None => look r end
         end) l
  end.
(** 403-416 test_triple, 418-426 *)
Definition detect_case_ro (t : node) : bool :=
  match find_letter t with
  | None => true
  | Some (f, l, n) =>
      if existsb (beq_bytes (swapcase n)) l then true
      else if exists_in f l (swapcase n) then false else true
  end.
(** 652-680, read only *)
Definition detect_dos_ro (t : node) : bool :=
  match t with Leaf => false | Dir f l => exists_in f (map fst l) (bs "con") end.
(** 724-763 _detect_escape_trailing_spaces_readonly *)
Fixpoint trailing_loop (f : fs) (all : list bytes) (l : list bytes) : bool :=
  match l with
  | [] => false
  | n :: r =>
      if ends_blank n then false
      else if existsb (beq_bytes (n ++ [chr 46])) all then false
      else if exists_in f all (n ++ [chr 46]) then true
      else trailing_loop f all r
  end.
Definition detect_trailing_ro (t : node) : bool :=
  match t with Leaf => false | Dir f l => trailing_loop f (map fst l) (map fst l) end.

(** ** The name of a file in a new repository
    fs_abilities.py:985-1006 (M_Quoting.ctq_from_fsas), 905-932 set_special_escapes;
    _repo_shadow.py:222: nothing is quoted nor escaped without chars_to_quote *)
Definition repo_name (src : node) (dest : found) (n : bytes) : bytes :=
  match ctq_from_fsas (detect_case_ro src) (d_case dest) (Some (d_ext dest)) (d_win dest) with
  | None => n
  | Some cls =>
      fs_quote cls (d_dos dest && negb (detect_dos_ro src)) (d_trail dest && negb (detect_trailing_ro src)) n
  end.
