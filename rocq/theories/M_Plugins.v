(** * The plug-ins: actions and kinds of metadata, delivered and added.

    /repo/src/rdiffbackup/utils/plugins.py:32-83,
    /repo/src/rdiffbackup/meta_mgr.py:376-419, actions_mgr.py:31-44.

    Simplified: a module is its name and the class of its get_plugin_class; a class is a
    number (its identity), the name it gives itself and whether it claims to be the main
    one; the answer is the one of the first call (it is kept afterwards). *)
From Coq Require Import List Bool Ascii Arith.
From Verif Require Import Base.
Import List ListNotations.

Record class : Type := mk_class { c_id : nat; c_name : bytes; c_main : bool }.
Definition module : Type := bytes * class.

(** dictionaries of Python: a key keeps its place, its value is the last one *)
Fixpoint dset {A} (k : bytes) (v : A) (d : list (bytes * A)) : list (bytes * A) :=
  match d with
  | [] => [(k, v)]
  | (k', v') :: r => if beq_bytes k' k then (k, v) :: r else (k', v') :: dset k v r
  end.
Definition update {A} (d e : list (bytes * A)) : list (bytes * A) :=
  fold_left (fun d kv => dset (fst kv) (snd kv) d) e d.

(** plugins.py:32-58 get_discovered_plugins; [top]: the modules at the top level,
    [delivered]: those of the name space (61-83) *)
Definition discovered_modules (prefix : bytes) (top delivered : list module) : list module :=
  update (update [] (filter (fun m => starts_with prefix (fst m)) top)) delivered.
Definition discover (prefix : bytes) (top delivered : list module) : list (bytes * class) :=
  update [] (map (fun m => (c_name (snd m), snd m)) (discovered_modules prefix top delivered)).

(** meta_mgr.py:396-419 get_meta_list; [None]: FatalError *)
Fixpoint split_main (main : option class) (others : list class) (l : list class) : option (list class) :=
  match l with
  | [] => match main with Some m => Some (m :: others) | None => None end
  | c :: r => if c_main c then match main with None => split_main (Some c) others r | Some _ => None end
              else split_main main (others ++ [c]) r
  end.
Definition meta_list (d : list (bytes * class)) : option (list class) := split_main None [] (map snd d).
