(** * The cache between listing and patching
    (src/rdiffbackup/locations/_repo_shadow.py:2167-2466, class _CacheCollatedPostProcess).

    Simplifications: hard links (map_hardlinks.add_rorp, del_rorp) are modelled in
    M_Hardlinks; the temporary permissions of directories (dir_perms_list) in M_Perms; the
    statistics written by _post_process are the [Stat*] events here, summed up in
    M_Stats. *)
From Coq Require Import List ZArith Bool Ascii.
From Verif Require Import Base M_Iter.
Import List ListNotations.

(** What is looked at of a RORPath: index, isdir(), isreg(), getsize(), lstat(), sha1 *)
Record crorp : Type := mk_crorp {
  q_index : idx; q_dir : bool; q_reg : bool; q_size : Z; q_there : bool; q_sha : option bytes }.
Definition set_sha (r : crorp) (h : bytes) : crorp :=
  mk_crorp (q_index r) (q_dir r) (q_reg r) (q_size r) (q_there r) (Some h).
Notation cpair := (option crorp * option crorp)%type.

(** [source_rorp, dest_rorp, changed_flag, success_flag, increment] (2214-2226) under its
    index in cache_dict *)
Record centry : Type := mk_centry {
  e_index : idx; e_src : option crorp; e_dst : option crorp;
  e_changed : bool; e_success : nat; e_inc : option crorp }.
Definition set_src (e : centry) (r : option crorp) := mk_centry (e_index e) r (e_dst e) (e_changed e) (e_success e) (e_inc e).
Definition set_success (n : nat) (e : centry) := mk_centry (e_index e) (e_src e) (e_dst e) (e_changed e) n (e_inc e).
Definition set_changed (e : centry) := mk_centry (e_index e) (e_src e) (e_dst e) true (e_success e) (e_inc e).
Definition set_inc (r : crorp) (e : centry) := mk_centry (e_index e) (e_src e) (e_dst e) (e_changed e) (e_success e) (Some r).

(** What leaves the cache *)
Inductive event : Type :=
| StatSource (r : crorp)                       (* SessionStats.add_source_file *)
| StatDest (r : crorp)                         (* add_dest_file *)
| StatChanged (src dst : option crorp)         (* add_changed *)
| Write (r : crorp)                            (* metawriter.write_object *)
| FileStat (e : centry).                       (* FileStats.add_stats *)

Record ccpp : Type := mk_ccpp {
  c_dict : list centry;                        (* cache_dict, in order of insertion *)
  c_indices : list idx;                        (* cache_indices *)
  c_parents : list (idx * cpair);              (* parent_list *)
  c_out : list event }.                        (* oldest first *)
Definition ccpp_init : ccpp := mk_ccpp [] [] [] [].

Definition dget (d : list centry) (i : idx) : option centry := find (fun e => idx_eqb (e_index e) i) d.
Fixpoint dset (d : list centry) (x : centry) : list centry :=
  match d with
  | [] => [x]
  | e :: r => if idx_eqb (e_index e) (e_index x) then x :: r else e :: dset r x
  end.
Definition ddel (d : list centry) (i : idx) : list centry := filter (fun e => negb (idx_eqb (e_index e) i)) d.
Definition dmap (i : idx) (f : centry -> centry) (d : list centry) : list centry :=
  map (fun e => if idx_eqb (e_index e) i then f e else e) d.

(** 2422-2452 _post_process; [fstat]: there is a stats_writer *)
Definition there (o : option crorp) : bool := match o with Some r => q_there r | None => false end.
Definition post_process (fstat : bool) (e : centry) : list event :=
  (if negb (e_changed e) || negb (Nat.eqb (e_success e) 0)
   then match e_src e with Some r => [StatSource r] | None => [] end ++
        match e_dst e with Some r => [StatDest r] | None => [] end
   else []) ++
  (let m := match e_success e with O => e_dst e | S O => e_src e | _ => None end in
   (if Nat.eqb (e_success e) 1 || Nat.eqb (e_success e) 2 then [StatChanged (e_src e) (e_dst e)] else []) ++
   match m with Some r => if q_there r then [Write r] else [] | None => [] end) ++
  (if fstat then [FileStat e] else []).

(** 2385-2420 _update_parent_list; [None]: AssertionError *)
Definition is_dir (o : option crorp) : bool := match o with Some r => q_dir r | None => false end.
Definition update_parents (pl : list (idx * cpair)) (e : centry) : option (list (idx * cpair)) :=
  if negb (is_dir (e_src e) || is_dir (e_dst e)) then Some pl
  else
    let i := e_index e in
    let add l := l ++ [(i, (e_src e, e_dst e))] in
    match rev pl with
    | [] => match i with [] => Some (add pl) | _ => None end
    | (p, _) :: _ =>
        if negb (Nat.leb (length i) (length p + 1)) then None
        else if Nat.leb (length i) (length p) then
          if idx_eqb (firstn (length i - 1) p) (removelast i) then Some (add (firstn (length i) pl)) else None
        else Some (add pl)
    end.

(** 2360-2383 _shorten_cache.  [None]: IndexError or AssertionError *)
Definition shorten (fstat : bool) (s : ccpp) : option ccpp :=
  match c_indices s with
  | [] => None
  | i :: is =>
      match dget (c_dict s) i with
      | None => Some (mk_ccpp (c_dict s) is (c_parents s) (c_out s))
      | Some e =>
          match update_parents (c_parents s) e with
          | None => None
          | Some pl => Some (mk_ccpp (ddel (c_dict s) i) is pl (c_out s ++ post_process fstat e))
          end
      end
  end.

(** 2238-2248 __next__ with the next pair of the iterator.  [None]: error of
    _shorten_cache, or no pair has an index *)
Definition pair_index (p : cpair) : option idx :=
  match p with
  | (Some s, Some d) => match q_index s with [] => Some (q_index d) | i => Some i end
  | (Some s, None) => match q_index s with [] => None | i => Some i end
  | (None, Some d) => Some (q_index d)
  | (None, None) => None
  end.
Definition pull (fstat : bool) (cache_size : nat) (p : cpair) (s : ccpp) : option ccpp :=
  match pair_index p with
  | None => None
  | Some i =>
      let s1 := mk_ccpp (dset (c_dict s) (mk_centry i (fst p) (snd p) false 0 None))
                        (c_indices s ++ [i]) (c_parents s) (c_out s) in
      if Nat.ltb cache_size (length (c_indices s1)) then shorten fstat s1 else Some s1
  end.

(** 2250-2275: the accesses.  [None]: KeyError *)
Definition in_cache (s : ccpp) (i : idx) : bool := match dget (c_dict s) i with Some _ => true | None => false end.
Definition modify (f : centry -> centry) (i : idx) (s : ccpp) : option ccpp :=
  if in_cache s i then Some (mk_ccpp (dmap i f (c_dict s)) (c_indices s) (c_parents s) (c_out s)) else None.
Definition get_parent (s : ccpp) (i : idx) : option cpair :=
  match find (fun x => idx_eqb (fst x) i) (c_parents s) with Some (_, p) => Some p | None => None end.
Definition get_rorps (s : ccpp) (i : idx) : option cpair :=
  match dget (c_dict s) i with Some e => Some (e_src e, e_dst e) | None => get_parent s i end.
(** 2295-2307 update_hash (and 2309-2315 update_hardlink_hash): for a file in the cache.
    [None]: KeyError, AssertionError (index before the first one in the cache) or
    AttributeError (no source file).  The flag: was the checksum another one? *)
Definition update_hash (i : idx) (h : bytes) (s : ccpp) : option (ccpp * bool) :=
  match dget (c_dict s) i, c_indices s with
  | Some e, first :: _ =>
      if idx_ltb i first then None
      else match e_src e with
           | None => None
           | Some r =>
               let old := match e_dst e with Some d => q_sha d | None => None end in
               Some (mk_ccpp (dmap i (fun e => set_src e (Some (set_sha r h))) (c_dict s)) (c_indices s) (c_parents s) (c_out s),
                     match old with Some o => negb (beq_bytes o h) | None => true end)
           end
  | _, _ => None
  end.

(** 2317-2321 close, the part about the cache *)
Fixpoint drain (fstat : bool) (n : nat) (s : ccpp) : option ccpp :=
  match n with
  | O => Some s
  | S n' => match c_indices s with
            | [] => Some s
            | _ => match shorten fstat s with Some s' => drain fstat n' s' | None => None end
            end
  end.
Definition close (fstat : bool) (s : ccpp) : option ccpp := drain fstat (length (c_indices s)) s.

(** ** What happens during a backup: pairs are pulled by the signature iterator, flags are
    set by it (flag_changed) and, later, by the patching *)
Inductive op : Type :=
| Pull (p : cpair)
| FlagSuccess (i : idx)
| FlagDeleted (i : idx)
| FlagChanged (i : idx)
| SetInc (i : idx) (r : crorp)
| UpdateHash (i : idx) (h : bytes).
Definition step (fstat : bool) (cache_size : nat) (o : op) (s : ccpp) : option ccpp :=
  match o with
  | Pull p => pull fstat cache_size p s
  | FlagSuccess i => modify (set_success 1) i s
  | FlagDeleted i => modify (set_success 2) i s
  | FlagChanged i => modify set_changed i s
  | SetInc i r => modify (set_inc r) i s
  | UpdateHash i h => option_map fst (update_hash i h s)
  end.
Fixpoint steps (fstat : bool) (cache_size : nat) (l : list op) (s : ccpp) : option ccpp :=
  match l with
  | [] => Some s
  | o :: r => match step fstat cache_size o s with Some s' => steps fstat cache_size r s' | None => None end
  end.
Definition backup (fstat : bool) (cache_size : nat) (l : list op) : option (list event) :=
  match steps fstat cache_size l ccpp_init with
  | Some s => option_map c_out (close fstat s)
  | None => None
  end.
