(** * Directories which their owner may not change, during a backup

    Models src/rdiffbackup/locations/_repo_shadow.py:2327-2346 _CacheCollatedPostProcess._pre_process
    and _unreadable_dir_init, 2317-2325 close, 2454-2459 _reset_dir_perms, around M_RepoPatch's run.

    Simplifications: in the code files are looked at while others are already changed; here all
    directories are opened before the first change, which makes no difference as a
    directory is looked at before anything in it is changed and chmod leaves other paths alone.  Directories
    left behind in the cache get their permissions back already before the end
    (_reset_dir_perms, of the last one noted); here all at the end, where it is done in any case. *)
From Coq Require Import List ZArith Bool Ascii.
From Verif Require Import Base M_Iter M_TreeFs M_DirPatch M_RepoPatch.
Import List ListNotations.
Local Open Scope Z_scope.

Section Perms.
Variable root : bool.

(** 2327-2358: one pair of source and mirror (metadata); what is noted in dir_perms_list *)
Definition open_pair (p : option entry * option entry) (t : tree) : option (list (idx * Z) * tree) :=
  match p with
  | (src, Some (i, NDir b)) =>
      if negb root && low (a_perms b) then
        match chmod root (Z.lor 448 (a_perms b)) i t with
        | None => None
        | Some t1 => Some (match src with Some (_, NDir a) => [(i, a_perms a)] | _ => [] end, t1)
        end
      else Some ([], t)
  | _ => Some ([], t)
  end.
Fixpoint open_all (l : list (option entry * option entry)) (t : tree) : option (list (idx * Z) * tree) :=
  match l with
  | [] => Some ([], t)
  | p :: l' =>
      match open_pair p t with
      | None => None
      | Some (n, t1) => match open_all l' t1 with None => None | Some (n', t2) => Some (n ++ n', t2) end
      end
  end.

(** 2317-2325 close: dir_perms_list.pop(), so the last noted first *)
Fixpoint close_list (l : list (idx * Z)) (t : tree) : option tree :=
  match l with
  | [] => Some t
  | (i, p) :: l' => match chmod root p i t with None => None | Some t1 => close_list l' t1 end
  end.
Definition close_all (noted : list (idx * Z)) (t : tree) : option tree := close_list (rev noted) t.

(** a session *)
Definition dp_session (now : idx -> Z) (increments : bool) (cached : idx -> bool)
    (made : idx -> option node -> option (option node)) (same : node -> node -> bool)
    (source mirror : list entry) (t : tree) : option (list flag * tree) :=
  match open_all (collate2 fst fst source mirror) t with
  | None => None
  | Some (noted, t1) =>
      match rp_apply root now increments (fun i => get i mirror) cached made (get_diffs same source mirror) t1 with
      | None => None
      | Some (flags, t2) => match close_all noted t2 with None => None | Some t3 => Some (flags, t3) end
      end
  end.

(** 2454-2459 _reset_dir_perms, when the entry [current] leaves the cache *)
Definition reset_dir_perms (noted : list (idx * Z)) (current : idx) (t : tree) : option tree :=
  match rev noted with
  | [] => Some t
  | (d, p) :: _ =>
      match idx_cmp current d with
      | Gt => if is_prefix d current then Some t else chmod root p d t
      | _ => Some t
      end
  end.
End Perms.
