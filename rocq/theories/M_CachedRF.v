(** * Finding the data of a file to restore
    /repo/src/rdiffbackup/locations/_repo_shadow.py:2809-2905 _CachedRF, 3048-3110 (yield_sub_rfs,
    yield_inc_complexes, _yield_mirrorrps of _RestoreFile) and 3174-3243 _PermissionChanger.
    A _RestoreFile is its index here; see M_Core for what is done with its increments.
    Files with a long name (has_alt_mirror_name) are left out, see M_LongNames.  The process is
    not root (else _PermissionChanger isn't used) and owns the files of the mirror. *)
From Coq Require Import List ZArith Bool Ascii Lia.
From Verif Require Import Base M_Iter M_Quoting M_Time M_IncName.
Import List ListNotations.
Local Open Scope Z_scope.

(** ** the files in a directory of the repository *)
(** robust.py:90-99 listrp: sorted; the names of a directory are distinct *)
Fixpoint insert_u (x : bytes) (l : list bytes) : list bytes :=
  match l with
  | [] => [x]
  | y :: r => match bytes_cmp x y with Lt => x :: l | Eq => l | Gt => y :: insert_u x r end
  end.
Definition usort (l : list bytes) : list bytes := fold_right insert_u [] l.
(** 3149-3157 _yield_mirrorrps *)
Definition mirror_subs (d : idx) (names : list bytes) : list idx :=
  filter (fun i => negb (idx_eqb i [bs "rdiff-backup-data"])) (map (fun n => d ++ [n]) (usort names)).
(** 3090-3102 add_to_dict: the name under which an entry of the increments directory (name,
    isdir()) is kept *)
Definition inc_key (e : bytes * bool) : option bytes :=
  let as_dir := if snd e then Some (fst e) else None in
  match parse_increment_name (fst e) with
  | Some (_, _, _, ty, b) => if beq_bytes ty (bs "data") then as_dir else Some b
  | None => as_dir
  end.
(** 3075-3122 yield_inc_complexes: the keys of the dictionary, sorted *)
Definition inc_subs (d : idx) (entries : list (bytes * bool)) : list idx :=
  map (fun n => d ++ [n]) (usort (flat_map (fun e => match inc_key e with Some b => [b] | None => [] end) entries)).
(** 3051-3073 yield_sub_rfs; [mirror d] and [incs d]: what is in the directory, nothing if
    there is no such directory *)
Definition sub_rfs (mirror : idx -> list bytes) (incs : idx -> list (bytes * bool)) (d : idx) : list idx :=
  map (fun p => match p with (Some i, _) | (None, Some i) => i | (None, None) => [] end)
      (collate2 (fun i => i) (fun i => i) (mirror_subs d (mirror d)) (inc_subs d (incs d))).

(** ** 2856-2905 _get_rf, _add_rfs *)
Inductive outcome : Type := Found | NotFound | IndexError.
Section Cached.
Variable subs : idx -> list idx.
(** 2875-2898 _add_rfs: None: nothing there; else what is put in front of the list.  For
    the root it answers yes and puts nothing there. *)
Definition add_rfs (j : idx) : option (list idx) :=
  match j with
  | [] => Some []
  | _ => match subs (removelast j) with [] => None | news => Some news end
  end.
Definition parent_call (j : idx) : list idx := match j with [] => [] | _ => [removelast j] end.
(** one round of the while loop; the list of the files kept, the calls of the permission
    changer so far.  inl: the loop goes on *)
Definition get_round (j : idx) (l calls : list idx) : (list idx * list idx) + (outcome * list idx * list idx) :=
  let check l calls :=
    match l with
    | [] => inr (IndexError, l, calls)                              (* rf_list[0] *)
    | e :: r =>
        if idx_eqb e j then inr (Found, l, calls ++ [j])
        else if idx_ltb j e then
          if idx_eqb (removelast j) (removelast e) then inr (NotFound, l, calls)
          else match add_rfs j with
               | None => inr (NotFound, l, calls ++ parent_call j)
               | Some news => inl (news ++ l, calls ++ parent_call j)
               end
        else inl (r, calls)
    end in
  match l with
  | [] => match add_rfs j with
          | None => inr (NotFound, l, calls ++ parent_call j)
          | Some news => check news (calls ++ parent_call j)
          end
  | _ => check l calls
  end.
(** None: the loop is not finished after [fuel] rounds *)
Fixpoint get_rf (fuel : nat) (j : idx) (l calls : list idx) : option (outcome * list idx * list idx) :=
  match fuel with
  | O => None
  | S f => match get_round j l calls with inl (l', calls') => get_rf f j l' calls' | inr res => Some res end
  end.
(** successive calls of get_fp: what is found each time, and the calls of the permission changer *)
Fixpoint requests (fuel : nat) (l : list idx) (js : list idx) : option (list (outcome * list idx)) :=
  match js with
  | [] => Some []
  | j :: js' =>
      match get_rf fuel j l [] with
      | None => None
      | Some (o, l', calls) =>
          match requests fuel l' js' with Some r => Some ((o, calls) :: r) | None => None end
      end
  end.
End Cached.

(** ** 3174-3243 _PermissionChanger *)
(** the files of the mirror: kind and permissions *)
Inductive pkind : Type := PReg | PDir | POther.
Definition mirror_fs := idx -> option (pkind * Z).
(** rpath.py:921-937 readable, executable, for the owner *)
Definition readable (p : Z) : bool := 256 <=? p mod 512.
Definition executable (p : Z) : bool := 64 <=? p mod 128.
(** the proper prefixes of a path *)
Definition above (i : idx) : list idx := map (fun n => firstn n i) (seq 0 (length i)).
(** the system lets the owner look at the path (a path below something which is no directory
    doesn't exist) *)
Definition reachable (fs : mirror_fs) (i : idx) : bool :=
  forallb (fun d => match fs d with Some (PDir, p) => executable p | _ => false end) (above i).
(** rpath.py:1699-1712: what can't be looked at doesn't exist *)
Definition look (fs : mirror_fs) (i : idx) : option (pkind * Z) := if reachable fs i then fs i else None.
(** rpath.py:741-759 chmod (permission_mask leaves everything); None: an exception *)
Definition chmod (fs : mirror_fs) (i : idx) (p : Z) : option mirror_fs :=
  match look fs i with
  | Some (k, _) => Some (fun j => if idx_eqb i j then Some (k, p) else fs j)
  | None => None
  end.
Record pchanger : Type := mk_pc {
  pc_current : idx;                 (* current_index *)
  pc_open : list (idx * Z);         (* open_index_list *)
  pc_fs : mirror_fs }.
(** 3211-3219 _restore_old *)
Fixpoint restore_old (i : idx) (l : list (idx * Z)) (fs : mirror_fs) : option (list (idx * Z) * mirror_fs) :=
  match l with
  | [] => Some ([], fs)
  | (o, p) :: r =>
      if idx_ltb o (firstn (length o) i) then
        match chmod fs o p with Some fs' => restore_old i r fs' | None => None end
      else Some (l, fs)
  end.
(** 3221-3232 _add_chmod_new, for the paths of the list *)
Fixpoint add_chmod (l : list idx) (op : list (idx * Z)) (fs : mirror_fs) : option (list (idx * Z) * mirror_fs) :=
  match l with
  | [] => Some (op, fs)
  | i :: r =>
      match look fs i with
      | Some (PReg, p) =>
          if readable p then add_chmod r op fs
          else match chmod fs i (Z.lor 256 p) with Some fs' => add_chmod r ((i, p) :: op) fs' | None => None end
      | Some (PDir, p) =>
          if executable p && readable p then add_chmod r op fs
          else match chmod fs i (Z.lor 448 p) with Some fs' => add_chmod r ((i, p) :: op) fs' | None => None end
      | _ => add_chmod r op fs
      end
  end.
(** 3234-3247 _get_new_rp_list *)
Fixpoint common_len (n : nat) (old i : idx) : nat :=
  match n with
  | O => O
  | S m => if idx_eqb (firstn m old) (firstn m i) then m else common_len m old i
  end.
Definition new_paths (old i : idx) : list idx :=
  let c := common_len (length i) old i in map (fun n => firstn n i) (seq (S c) (length i - c)).
(** 3193-3204 __call__ *)
Definition pc_call (s : pchanger) (i : idx) : option pchanger :=
  match i with
  | [] => Some (mk_pc i (pc_open s) (pc_fs s))
  | _ =>
      if idx_eqb i (pc_current s) || idx_ltb i (pc_current s) then Some (mk_pc i (pc_open s) (pc_fs s))
      else match restore_old i (pc_open s) (pc_fs s) with
           | None => None
           | Some (op, fs) =>
               match add_chmod (new_paths (pc_current s) i) op fs with
               | Some (op', fs') => Some (mk_pc i op' fs')
               | None => None
               end
           end
  end.
Fixpoint pc_calls (s : pchanger) (l : list idx) : option pchanger :=
  match l with
  | [] => Some s
  | i :: r => match pc_call s i with Some s' => pc_calls s' r | None => None end
  end.
(** 3206-3209 finish *)
Fixpoint pc_finish (l : list (idx * Z)) (fs : mirror_fs) : option mirror_fs :=
  match l with
  | [] => Some fs
  | (i, p) :: r => match chmod fs i p with Some fs' => pc_finish r fs' | None => None end
  end.
