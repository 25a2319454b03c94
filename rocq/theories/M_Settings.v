(** * Settings derived from the abilities of the file systems

    Models src/rdiffbackup/locations/fs_abilities.py:773-1252 (SetGlobals,
    Dir2RepoSetGlobals, Repo2DirSetGlobals, SingleRepoSetGlobals): which kinds of extra
    metadata are read, recorded and written, and which names files get in a repository.

    Not modelled: how the abilities are detected (1-772; for each a flag here); hard
    links, fsync, ownership, high permissions, permissions of symbolic links (single
    flags taken from the destination, 842-865). *)
From Coq Require Import List NArith Bool Ascii.
From Verif Require Import Base M_Quoting M_EaAcl.
Import List ListNotations.

(** ** Extra metadata *)

Inductive kind := KEa | KAcl | KWinAcl | KFork | KCarbon.
Definition kind_eqb (a b : kind) : bool :=
  match a, b with
  | KEa, KEa | KAcl, KAcl | KWinAcl, KWinAcl | KFork, KFork | KCarbon, KCarbon => true
  | _, _ => false
  end.

(** what a file system supports (FSAbilities), as far as used here *)
Record fsa : Type := mk_fsa { supports : kind -> bool; needs_dos : bool; needs_trailing : bool }.

(** the options of the command line (arguments.py: --eas, --acls, --resource-forks,
    --carbonfile, --never-drop-acls); --acls is for both kinds *)
Record options : Type := mk_options { w_eas : bool; w_acls : bool; w_forks : bool; w_carbon : bool; never_drop : bool }.
Definition wanted (w : options) (k : kind) : bool :=
  match k with KEa => w_eas w | KAcl | KWinAcl => w_acls w | KFork => w_forks w | KCarbon => w_carbon w end.

(** singletons/generics.py: the same for all processes (xxx_active, xxx_write);
    singletons/specifics.py:71-82: one per connection, i.e. process (xxx_conn) *)
Record globals : Type := mk_globals {
  g_active : kind -> bool; g_write : kind -> bool; g_conn : nat -> kind -> bool }.
Definition set_k (f : kind -> bool) (k : kind) (b : bool) : kind -> bool :=
  fun k' => if kind_eqb k' k then b else f k'.
Definition set_active k b g := mk_globals (set_k (g_active g) k b) (g_write g) (g_conn g).
Definition set_write k b g := mk_globals (g_active g) (set_k (g_write g) k b) (g_conn g).
Definition set_conn (c : nat) k b g :=
  mk_globals (g_active g) (g_write g) (fun c' => if Nat.eqb c' c then set_k (g_conn g c') k b else g_conn g c').

(** 973-984 Dir2RepoSetGlobals._update_triple *)
Definition backup_triple (cin cout : nat) (src dest toggle : bool) (k : kind) (g : globals) : globals :=
  set_conn cout k (dest && toggle)
    (set_write k (dest && toggle)
      (set_conn cin k (src && toggle)
        (set_active k (src && toggle) g))).
(** 1161-1178 Repo2DirSetGlobals._update_triple *)
Definition restore_triple (cin cout : nat) (src dest toggle : bool) (k : kind) (g : globals) : globals :=
  set_conn cin k (src && toggle)
    (set_conn cout k (dest && toggle)
      (set_write k (dest && toggle)
        (set_active k (dest && toggle) g))).
(** 1242-1252 SingleRepoSetGlobals._update_triple *)
Definition single_triple (c : nat) (sup toggle : bool) (k : kind) (g : globals) : globals :=
  set_conn c k (sup && toggle) (set_write k (sup && toggle) (set_active k (sup && toggle) g)).

(** 885-903 and 799-835: [cin], [cout] the connections to source and repository.  [None]:
    FatalError, --never-drop-acls without ACLs *)
Definition backup_globals (cin cout : nat) (src dest : fsa) (w : options) (g : globals) : option globals :=
  let step k := backup_triple cin cout (supports src k) (supports dest k) (wanted w k) k in
  let g := step KAcl (step KEa g) in
  if never_drop w && negb (g_active g KAcl) then None
  else Some (step KCarbon (step KFork (step KWinAcl g))).
(** 1083-1100; set_acls is inherited, with the check *)
Definition restore_globals (cin cout : nat) (src dest : fsa) (w : options) (g : globals) : option globals :=
  let step k := restore_triple cin cout (supports src k) (supports dest k) (wanted w k) k in
  let g := step KAcl (step KEa g) in
  if never_drop w && negb (g_active g KAcl) then None
  else Some (step KCarbon (step KFork (step KWinAcl g))).
(** 1187-1206, 1208-1240 (set_acls without the check) *)
Definition single_globals (c : nat) (f : fsa) (w : options) (g : globals) : globals :=
  let step k := single_triple c (supports f k) (wanted w k) k in
  step KCarbon (step KFork (step KWinAcl (step KAcl (step KEa g)))).

Section Extras.
Context {A : Type}.
(** the extra metadata of a file by kind; [None]: no such entry in the dictionary *)
Definition extras : Type := kind -> option A.

(** recorded in a file of its own (meta/ea.py:260, acl_posix.py:299, acl_win.py:323) or
    together with the standard attributes (stdattr.py:177-187, whatever is there) *)
Definition separate (k : kind) : bool := match k with KEa | KAcl | KWinAcl => true | _ => false end.

(** rpath.py:1802-1811: read by the process of the connection [c]; forks and carbon files
    of regular files only *)
Definition read_extras (g : globals) (c : nat) (regular : bool) (x : extras) : extras :=
  fun k => if g_conn g c k && (separate k || regular) then x k else None.
(** what the metadata of the session hold: meta_mgr.py:195-207, is_active *)
Definition record_extras (g : globals) (x : extras) : extras :=
  fun k => if negb (separate k) || g_active g k then x k else None.
(** what is read from the metadata: meta_mgr.py:85-95 *)
Definition load_extras := record_extras.
(** rpath.py:1555-1590 copy_attribs: what is written to a file *)
Definition write_extras (g : globals) (x : extras) : extras :=
  fun k => if g_write g k then x k else None.

(** rpath.py:87-102 _global_ignored_keys and the keys used in the dictionary *)
Definition key_of (k : kind) : bytes :=
  match k with
  | KEa => bs "ea" | KAcl => bs "acl" | KWinAcl => bs "win_acl" | KFork => bs "resourcefork" | KCarbon => bs "carbonfile"
  end.
Definition ignored_keys (g : globals) : list bytes :=
  bs "atime" ::
  (if g_write g KEa then [] else [bs "ea"]) ++ (if g_write g KAcl then [] else [bs "acl"]) ++
  (if g_write g KWinAcl then [] else [bs "win_acl"]) ++ (if g_write g KFork then [] else [bs "resource_forks"]) ++
  (if g_write g KCarbon then [] else [bs "carbonfile"]).
(** rpath.py:132-171 __eq__, the part about extra metadata: of [x] (the source) compared
    with [y] (the metadata); only entries of [x] count *)
Variable aeq : A -> A -> bool.
Definition extras_same (g : globals) (x y : extras) : bool :=
  forallb (fun k =>
    existsb (fun i => beq_bytes i (key_of k)) (ignored_keys g) ||
    match x k, y k with
    | None, _ => true
    | Some a, Some b => aeq a b
    | Some _, None => false
    end) [KEa; KAcl; KWinAcl; KFork; KCarbon].
End Extras.

(** ** Names *)

(** chars_to_quote, escape_dos_devices, escape_trailing_spaces *)
Record naming : Type := mk_naming { n_ctq : bytes; n_dos : bool; n_trail : bool }.
(** the files chars_to_quote and special_escapes of rdiff-backup-data *)
Record nrec : Type := mk_nrec { rec_ctq : option bytes; rec_esc : option bytes }.

(** _repo_shadow.py:2008-2033 set_config and get_config for sets: a member per line; the
    order of the members in the file is arbitrary *)
Definition write_set (l : list bytes) : bytes := join_with (bs "
") l.
Definition read_set (c : bytes) : list bytes := split_on (chr 10) (strip c).
Definition mem (s : bytes) (l : list bytes) : bool := existsb (beq_bytes s) l.
Definition DOS : bytes := bs "escape_dos_devices".
Definition TRAIL : bytes := bs "escape_trailing_spaces".
Definition esc_members (swap dos trail : bool) : list bytes :=
  let l := (if dos then [DOS] else []) ++ (if trail then [TRAIL] else []) in
  if swap then rev l else l.

(** 958-971 and 905-956, in this order; [enforced] --chars-to-quote, [suggested] by the
    file systems (985-1006).  [None]: FatalError; the record is written only if there was
    none before. *)
Definition backup_naming (enforced : option bytes) (suggested : bytes) (swap : bool) (src dest : fsa) (r : nrec)
    : option (naming * nrec) :=
  match compare_ctq (rec_ctq r) enforced suggested with
  | None => None
  | Some (ctq, stored) =>
      match rec_esc r with
      | None =>
          let dos := needs_dos dest && negb (needs_dos src) in
          let trail := needs_trailing dest && negb (needs_trailing src) in
          Some (mk_naming ctq dos trail, mk_nrec (Some stored) (Some (write_set (esc_members swap dos trail))))
      | Some c =>
          Some (mk_naming ctq (mem DOS (read_set c)) (mem TRAIL (read_set c)), mk_nrec (Some stored) (Some c))
      end
  end.
(** 1102-1159: restore (also compare); [src] is the file system of the repository *)
Definition restore_naming (enforced : option bytes) (src : option fsa) (dest : fsa) (r : nrec) : naming :=
  let ctq := match enforced with Some e => e | None => match rec_ctq r with Some c => c | None => [] end end in
  match rec_esc r with
  | Some c => mk_naming ctq (mem DOS (read_set c)) (mem TRAIL (read_set c))
  | None =>
      match src with
      | Some s => mk_naming ctq (needs_dos s && negb (needs_dos dest)) (needs_trailing s && negb (needs_trailing dest))
      (* SingleRepoSetGlobals: only the repository *)
      | None => mk_naming ctq (needs_dos dest) (needs_trailing dest)
      end
  end.

(** sessions one after the other, refused ones change nothing *)
Record nsession : Type := mk_ns { ns_enforced : option bytes; ns_suggested : bytes; ns_swap : bool; ns_src : fsa; ns_dest : fsa }.
Fixpoint naming_run (r : nrec) (l : list nsession) : list (option naming) * nrec :=
  match l with
  | [] => ([], r)
  | s :: l' =>
      match backup_naming (ns_enforced s) (ns_suggested s) (ns_swap s) (ns_src s) (ns_dest s) r with
      | Some (n, r') => let (out, r2) := naming_run r' l' in (Some n :: out, r2)
      | None => let (out, r2) := naming_run r l' in (None :: out, r2)
      end
  end.

Section Names.
(** the set of characters described by the inside of brackets in a regular expression
    (map/filenames.py:167-185) *)
Variable class_of : bytes -> ascii -> bool.
(** _repo_shadow.py:212-233 _setup_quoting, map/filenames.py:118-158: the name of a file in
    the repository, and the name read from one *)
Definition disk_name (n : naming) (name : bytes) : bytes :=
  match n_ctq n with [] => name | _ => fs_quote (class_of (n_ctq n)) (n_dos n) (n_trail n) name end.
Definition read_name (n : naming) (d : bytes) : bytes :=
  match n_ctq n with [] => d | _ => fs_unquote d end.
End Names.
