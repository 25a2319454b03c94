(** * Hard links

    Models src/rdiffbackup/locations/map/hardlinks.py, and its use during a backup
    (_repo_shadow.py: _sigs_iterator, _get_one_sig, _CacheCollatedPostProcess), a restore
    (_repo_shadow.py: _get_diffs_from_collated, _get_diff; _dir_shadow.py: _DirPatchITRB) and
    a verification (get_hash). *)
From Coq Require Import List ZArith Bool Ascii Lia.
From Verif Require Import Base M_Iter.
Import List ListNotations.
Local Open Scope Z_scope.

(** What the functions look at in a RORPath: index, isreg(), getnumlinks(),
    (getinode(), getdevloc()), has_sha1()/get_sha1().  Simplification: the inode of a file
    with several links is always known (a KeyError is possible with a damaged metadata file). *)
Record lfile : Type := mk_lfile {
  f_index : idx; f_reg : bool; f_nlinks : Z; f_key : Z * Z; f_sha1 : option bytes }.
Definition key_eqb (a b : Z * Z) : bool := (fst a =? fst b) && (snd a =? snd b).

(** dest_key: None, "NA" or a key *)
Inductive dkey : Type := DNone | DNA | DKey (k : Z * Z).
Record lentry : Type := mk_lentry { l_index : idx; l_remaining : Z; l_dest : dkey; l_digest : option bytes }.
(** _inode_index (44) and _inode_old_index (47) *)
Definition table := list ((Z * Z) * lentry).
Definition oldtable := list ((Z * Z) * bytes).
Fixpoint tget {V} (t : list ((Z * Z) * V)) (k : Z * Z) : option V :=
  match t with [] => None | (k', v) :: r => if key_eqb k' k then Some v else tget r k end.
Fixpoint tdel {V} (t : list ((Z * Z) * V)) (k : Z * Z) : list ((Z * Z) * V) :=
  match t with [] => [] | (k', v) :: r => if key_eqb k' k then tdel r k else (k', v) :: tdel r k end.
Definition tset {V} (t : list ((Z * Z) * V)) (k : Z * Z) (v : V) : list ((Z * Z) * V) := (k, v) :: tdel t k.

(** rorp.isreg() and rorp.getnumlinks() >= 2 *)
Definition multi (x : lfile) : bool := f_reg x && (2 <=? f_nlinks x).
Definition set_sha1 (x : lfile) (s : bytes) : lfile := mk_lfile (f_index x) (f_reg x) (f_nlinks x) (f_key x) (Some s).

(** 47-68 add_rorp: the tables and the destination file, which may receive a checksum *)
Definition add_rorp (t : table) (o : oldtable) (x : lfile) (dest : option lfile) : table * oldtable * option lfile :=
  if negb (multi x) then (t, o, dest)
  else match tget t (f_key x) with
  | Some _ => (t, o, dest)
  | None =>
      let '(dk, o', dest') :=
        match dest with
        | None => (DNone, o, dest)
        | Some d =>
            let dk := if f_nlinks d =? 1 then DNA else DKey (f_key d) in
            match dk with
            | DKey k =>
                match tget o k, f_sha1 d with
                | Some h, None => (dk, tdel o k, Some (set_sha1 d h))
                | _, _ => (dk, o, dest)
                end
            | _ => (dk, o, dest)
            end
        end in
      (tset t (f_key x) (mk_lentry (f_index x) (f_nlinks x) dk (f_sha1 x)), o', dest')
  end.
(** 71-80 add_old_rorp *)
Definition add_old_rorp (o : oldtable) (d : lfile) : oldtable :=
  match f_sha1 d with
  | Some h => if multi d then match tget o (f_key d) with None => tset o (f_key d) h | Some _ => o end else o
  | None => o
  end.
(** 83-99 del_rorp *)
Definition del_rorp (t : table) (x : lfile) : table :=
  if negb (multi x) then t
  else match tget t (f_key x) with
  | None => t
  | Some e => if l_remaining e =? 1 then tdel t (f_key x)
              else tset t (f_key x) (mk_lentry (l_index e) (l_remaining e - 1) (l_dest e) (l_digest e))
  end.
(** 140-149 is_linked *)
Definition is_linked (t : table) (x : lfile) : bool :=
  (1 <? f_nlinks x) &&
  match tget t (f_key x) with Some e => negb (idx_eqb (l_index e) (f_index x)) | None => false end.
(** 152-156 get_link_index; None: KeyError *)
Definition get_link_index (t : table) (x : lfile) : option idx := option_map l_index (tget t (f_key x)).
(** 102-137 rorp_eq; None: KeyError *)
Definition rorp_eq (t : table) (src dest : lfile) : option (bool * table) :=
  if negb (f_reg src) || negb (f_reg dest) || ((f_nlinks src =? 1) && (f_nlinks dest =? 1)) then Some (true, t)
  else if negb (is_linked t src) && match f_sha1 dest with None => true | Some _ => false end then Some (false, t)
  else if negb (f_nlinks src =? f_nlinks dest) then Some (false, t)
  else match tget t (f_key src) with
  | None => None
  | Some e =>
      match l_dest e with
      | DNA => Some (true, tset t (f_key src) (mk_lentry (l_index e) (l_remaining e) DNone None))
      | DKey k => Some (key_eqb k (f_key dest), t)
      | DNone => Some (false, t)
      end
  end.
(** 166-179 get_hash, for one file *)
Definition get_hash (t : table) (x : lfile) : option bytes * table :=
  let '(t1, _, _) := add_rorp t [] x None in
  let h := if is_linked t1 x then match tget t1 (f_key x) with Some e => l_digest e | None => None end
           else f_sha1 x in
  (h, del_rorp t1 x).
(** compare/verify: for each file of the metadata (_repo_shadow.py:1528-1546, _dir_shadow.py:186-195) *)
Fixpoint hashes (t : table) (l : list lfile) : list (option bytes) :=
  match l with
  | [] => []
  | x :: r => let '(h, t') := get_hash t x in h :: hashes t' r
  end.

Notation lpair := (option lfile * option lfile)%type.
(** ** What is decided for a pair of files *)
Inductive what : Type :=
| Same                     (* left as it is *)
| LinkTo (i : idx)         (* made a link to another file *)
| Fresh                    (* written *)
| Gone.                    (* removed *)
Section Decide.
(** RORPath.__eq__, see M_Rorp.rorp_eq *)
Variable same : lfile -> lfile -> bool.
(** preserve_hardlinks being on: _repo_shadow.py:580-594 and 598-605 (backup), 961-986 (restore) *)
Definition decide (t : table) (src dest : option lfile) : option (what * table) :=
  let changed t := match src with
    | None => Some (Gone, t)
    | Some x => if is_linked t x then option_map (fun i => (LinkTo i, t)) (get_link_index t x) else Some (Fresh, t)
    end in
  match src, dest with
  | Some x, Some d =>
      if same x d then
        match rorp_eq t x d with
        | None => None
        | Some (true, t') => Some (Same, t')
        | Some (false, t') => changed t'
        end
      else changed t
  | _, _ => changed t
  end.

(** *** Backup *)
(** _repo_shadow.py:2236-2246 __next__, 2328-2339 _pre_process and 2360-2383, 2424-2433
    _shorten_cache, _post_process: the source files in the cache, oldest first *)
Definition post (t : table) (p : lpair) : table := match fst p with Some x => del_rorp t x | None => t end.
Definition shorten (cache_size : nat) (cache : list lpair) (t : table) : list lpair * table :=
  match cache with
  | p :: rest => if Nat.ltb cache_size (length cache) then (rest, post t p) else (cache, t)
  | [] => (cache, t)
  end.
Definition pre_process (t : table) (o : oldtable) (src dest : option lfile) : table * oldtable * option lfile :=
  match src, dest with
  | Some x, _ => add_rorp t o x dest
  | None, Some d => (t, add_old_rorp o d, dest)
  | None, None => (t, o, dest)
  end.
Fixpoint backup_loop (cache_size : nat) (cache : list lpair) (t : table) (o : oldtable) (l : list lpair)
    : option (list what * table) :=
  match l with
  | [] => Some ([], fold_left post cache t)                          (* close *)
  | (src, dest) :: r =>
      let '(t1, o1, dest1) := pre_process t o src dest in
      let cache1 := cache ++ [(src, dest1)] in
      let '(cache2, t2) := shorten cache_size cache1 t1 in
      match decide t2 src dest1 with
      | None => None
      | Some (w, t3) =>
          match backup_loop cache_size cache2 t3 o1 r with
          | Some (ws, t4) => Some (w :: ws, t4)
          | None => None
          end
      end
  end.
(** *** Restore *)
(** 958-979 _get_diffs_from_collated *)
Fixpoint restore_loop (t : table) (o : oldtable) (l : list lpair) : option (list what * table) :=
  match l with
  | [] => Some ([], t)
  | (src, dest) :: r =>
      let '(t1, o1, dest1) := match src with Some x => add_rorp t o x dest | None => (t, o, dest) end in
      match decide t1 src dest1 with
      | None => None
      | Some (w, t2) =>
          match restore_loop (post t2 (src, dest1)) o1 r with
          | Some (ws, t4) => Some (w :: ws, t4)
          | None => None
          end
      end
  end.
End Decide.

(** ** The directory restored to: which inode each path has; [fresh] numbers
    new files.  _dir_shadow.py:421-426 fast_process_file, 461-477 _patch_to_temp; hardlinks.py:188-209 link_rp:
    if the other file isn't there, an empty file is made. *)
Definition inodes := list (idx * nat).
Fixpoint iget (d : inodes) (i : idx) : option nat :=
  match d with [] => None | (j, n) :: r => if idx_eqb j i then Some n else iget r i end.
Fixpoint apply_decisions (fresh : nat) (d : inodes) (l : list (idx * what)) : inodes :=
  match l with
  | [] => d
  | (i, w) :: r =>
      let rest := filter (fun jn => negb (idx_eqb (fst jn) i)) d in
      match w with
      | Same => apply_decisions fresh d r
      | Gone => apply_decisions fresh rest r
      | Fresh => apply_decisions (S fresh) ((i, fresh) :: rest) r
      | LinkTo j =>
          match iget d j with
          | Some n => apply_decisions fresh ((i, n) :: rest) r
          | None => apply_decisions (S fresh) ((i, fresh) :: rest) r
          end
      end
  end.
