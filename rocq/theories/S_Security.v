(** * Specification for the vetting of requests: where a path leads, and what the
    remote functions do. *)
From Coq Require Import List ZArith Bool Ascii.
From Verif Require Import Base.
Import List ListNotations.

(** The place a path leads to, without symbolic links: walk from the root (or from
    the current directory), one name after the other. *)
Fixpoint walk (here : list bytes) (names : list bytes) : list bytes :=
  match names with
  | [] => here
  | n :: r =>
      walk (if beq_bytes n [] || beq_bytes n (bs ".") then here
            else if beq_bytes n (bs "..") then removelast here
            else here ++ [n]) r
  end.
Definition place (cwd : list bytes) (p : bytes) : list bytes :=
  match p with
  | c :: _ => if Ascii.eqb c "/" then walk [] (split_on "/" p) else walk cwd (split_on "/" p)
  | [] => cwd
  end.
(** [p] is the directory [d] or something in it, from any current directory *)
Definition under (d p : bytes) : Prop := forall cwd, exists q, place cwd p = place cwd d ++ q.

(** Remote functions which write to the disk of the process executing them
    (_repo_shadow.py: apply 289-325, close_statistics, touch_current_mirror,
    remove_current_mirror, set_config, regress, force_regress,
    remove_increments_older_than, remove_file; _dir_shadow.py: WriteDirShadow;
    connection.py: VirtualFile.writetoid), those which take away or overwrite what
    earlier sessions wrote, and those able to write only into a repository. *)
Definition destroying : list bytes :=
  [bs "_repo_shadow.RepoShadow.regress"; bs "_repo_shadow.RepoShadow.force_regress";
   bs "_repo_shadow.RepoShadow.remove_increments_older_than"; bs "_repo_shadow.RepoShadow.remove_file";
   bs "_dir_shadow.WriteDirShadow.apply"; bs "_dir_shadow.WriteDirShadow.setup";
   bs "_dir_shadow.WriteDirShadow.init"; bs "_dir_shadow.WriteDirShadow.check";
   bs "_dir_shadow.WriteDirShadow.set_select"; bs "_dir_shadow.WriteDirShadow.get_sigs_select";
   bs "_dir_shadow.WriteDirShadow.get_fs_abilities"].
Definition updating : list bytes :=
  [bs "_repo_shadow.RepoShadow.apply"; bs "_repo_shadow.RepoShadow.close_statistics";
   bs "_repo_shadow.RepoShadow.touch_current_mirror"; bs "_repo_shadow.RepoShadow.remove_current_mirror";
   bs "_repo_shadow.RepoShadow.set_config"; bs "VirtualFile.writetoid"].
Definition writing : list bytes := destroying ++ updating.
(** Functions reading the content or the history of a source or a repository. *)
Definition reading : list bytes :=
  [bs "_dir_shadow.ReadDirShadow.get_diffs"; bs "_dir_shadow.ReadDirShadow.get_select";
   bs "_dir_shadow.ReadDirShadow.compare_full"; bs "_dir_shadow.ReadDirShadow.compare_hash";
   bs "_dir_shadow.ReadDirShadow.compare_meta"; bs "_repo_shadow.RepoShadow.get_diffs";
   bs "_repo_shadow.RepoShadow.list_files_at_time"; bs "_repo_shadow.RepoShadow.list_files_changed_since";
   bs "_repo_shadow.RepoShadow.init_and_get_loop"; bs "_repo_shadow.RepoShadow.get_increments"].
