(** * C57 to C62: a concrete world; cases which meet the hypotheses, and proved exceptions *)
From Coq Require Import List NArith ZArith Bool Ascii Lia.
From Verif Require Import Base M_Actions S_Actions P_Actions P_Order P_Commands.
Import ListNotations.
Local Open Scope N_scope.

(** ** A small world *)
Record world : Type := mk_world {
  w_dir : kind; w_dir_empty : bool;             (* source directory, or target of a restore *)
  w_repo : kind; w_repo_empty : bool; w_data : kind; w_incs : bool;
  w_marks : list Z;                             (* current_mirror markers *)
  w_quote : option bytes; w_escapes : bool;
  w_lockfile : bool; w_foreign : bool }.        (* another process holds the lock *)

Definition w_view (w : world) : view :=
  {| v_kind := fun l => match l with LDir => w_dir w | LRepo => w_repo w end;
     v_empty := fun l => match l with LDir => w_dir_empty w | LRepo => w_repo_empty w end;
     v_data := w_data w; v_incs := w_incs w;
     v_nomarker := match w_marks w with [] => true | _ => false end;
     v_lockfile := w_lockfile w;
     v_mtime := match w_marks w with [] => 0%Z | [t] => t | _ => (-1)%Z end;
     v_quote := w_quote w; v_escapes := w_escapes w |}.

Definition with_dir k e w := mk_world k e (w_repo w) (w_repo_empty w) (w_data w) (w_incs w) (w_marks w) (w_quote w) (w_escapes w) (w_lockfile w) (w_foreign w).
Definition with_repo k e w := mk_world (w_dir w) (w_dir_empty w) k e (w_data w) (w_incs w) (w_marks w) (w_quote w) (w_escapes w) (w_lockfile w) (w_foreign w).
Definition with_data k i w := mk_world (w_dir w) (w_dir_empty w) (w_repo w) false k i (w_marks w) (w_quote w) (w_escapes w) (w_lockfile w) (w_foreign w).
Definition with_marks m w := mk_world (w_dir w) (w_dir_empty w) (w_repo w) (w_repo_empty w) (w_data w) (w_incs w) m (w_quote w) (w_escapes w) (w_lockfile w) (w_foreign w).
Definition with_conf q e w := mk_world (w_dir w) (w_dir_empty w) (w_repo w) (w_repo_empty w) (w_data w) (w_incs w) (w_marks w) q e (w_lockfile w) (w_foreign w).
Definition with_lock b w := mk_world (w_dir w) (w_dir_empty w) (w_repo w) (w_repo_empty w) (w_data w) (w_incs w) (w_marks w) (w_quote w) (w_escapes w) b (w_foreign w).

Definition now : Z := 100%Z.
Definition w_eff (fails : option op) (_ : list op) (p : op) (w : world) : world * out N :=
  match fails, p with
  | Some OpApply, OpApply | Some OpTouch, OpTouch => (w, Killed)
  | _, _ =>
    (match p with
     | OpDelete LDir => with_dir KNone true w
     | OpDelete LRepo => with_repo KNone true w
     | OpMkdir LDir => with_dir KDir true w
     | OpMkdir LRepo => with_repo KDir true w
     | OpMkData => with_data KDir (w_incs w) w
     | OpMkIncs => with_data (w_data w) true w
     | OpSetQuote => with_conf (Some []) (w_escapes w) w
     | OpSetEscapes => with_conf (w_quote w) true w
     | OpLock => with_lock true w
     | OpExit => w
     | OpTouch => with_marks (now :: w_marks w) w
     | OpRemoveMarker => with_marks (firstn 1 (w_marks w)) w
     | OpRegress => with_marks (skipn 1 (w_marks w)) w
     | OpFake => with_marks (50%Z :: w_marks w) w
     | OpRestore => with_dir KDir false w
     | _ => w
     end, Val OK)
  end.

Definition w_env (fails : option op) (time_ok tempdir : bool) (misc : N) : env world :=
  {| e_view := w_view; e_eff := w_eff fails;
     e_lock := fun _ w => if w_lockfile w then Some (negb (w_foreign w)) else None;
     e_faked := fun _ _ => true; e_system := OK; e_mismatch := false; e_tempdir := tempdir;
     e_precheck := OK; e_conn := Val true; e_init := Val tt; e_ref_inc := false;
     e_ref_index := false; e_abil := fun _ _ => Val true; e_misc := fun _ _ => Val misc;
     e_suggested := fun _ => []; e_time := fun _ => Val time_ok;
     e_regress := fun _ w => Val (match w_marks w with _ :: _ :: _ => NRYes | _ => NRNo end);
     e_recursion := false; e_read := fun _ _ => Val OK |}.
Definition good := w_env None true true OK.
Definition plain : opts := mk_opts false false false false false false None now.
Definition forced : opts := mk_opts true false false false false false None now.

Definition source_only : world := mk_world KDir false KNone true KNone false [] None false false false.
Definition repo_at (l : list Z) : world := mk_world KDir false KDir false KDir true l (Some []) true true false.
Definition result (r : st world * out N) := (s_ops (fst r), s_disk (fst r), status (snd r)).

(** ** C60, C61: sessions which go through *)
Example first_backup : result (command world good plain Backup source_only) =
  ([OpMkdir LRepo; OpMkData; OpMkIncs; OpLock; OpTestFs LRepo; OpSetQuote; OpSetEscapes; OpOpenLogs;
    OpApply; OpTouch; OpStats; OpExit], repo_at [now], Some OK).
Proof. vm_compute. reflexivity. Qed.
Example next_backup : result (command world good plain Backup (repo_at [50%Z])) =
  ([OpLock; OpTestFs LRepo; OpOpenLogs; OpTouch; OpApply; OpRemoveMarker; OpStats; OpExit],
   repo_at [now], Some OK).
Proof. vm_compute. reflexivity. Qed.
(** the process ends within the session; the next command regresses first and warns *)
Definition late : opts := mk_opts false false false false false false None 200%Z.
Example killed_then_backup :
  let w := s_disk (fst (command world (w_env (Some OpApply) true true OK) plain Backup (repo_at [50%Z]))) in
  w = repo_at [now; 50%Z] /\
  s_ops (fst (command world good late Backup w)) =
    [OpLock; OpTestFs LRepo; OpOpenLogs; OpRegress; OpTouch; OpApply; OpRemoveMarker; OpStats; OpExit] /\
  status (snd (command world good late Backup w)) = Some WARN.
Proof. vm_compute. repeat split. Qed.
Example removal : result (command world good plain RemoveIncrements (repo_at [50%Z])) =
  ([OpLock; OpTestFs LRepo; OpRemoveIncs; OpExit], repo_at [50%Z], Some OK).
Proof. vm_compute. reflexivity. Qed.
Example regress_forced : result (command world good forced Regress (repo_at [70%Z])) =
  ([OpLock; OpTestFs LRepo; OpFake; OpRegress; OpExit], repo_at [70%Z], Some OK).
Proof. vm_compute. reflexivity. Qed.
Example regress_needed : result (command world good plain Regress (repo_at [70%Z; 50%Z])) =
  ([OpLock; OpTestFs LRepo; OpRegress; OpExit], repo_at [50%Z], Some WARN).
Proof. vm_compute. reflexivity. Qed.
Example restoring : result (command world good plain Restore (with_dir KNone true (repo_at [50%Z]))) =
  ([OpMkdir LDir; OpTestFs LDir; OpRestore], repo_at [50%Z], Some OK).
Proof. vm_compute. reflexivity. Qed.
(** the process is killed with the lock held *)
Example killed_with_lock :
  let r := command world (w_env (Some OpApply) true true OK) plain Backup (repo_at [50%Z]) in
  s_lock (fst r) = true /\ snd r = Killed /\ ~ In OpExit (s_ops (fst r)).
Proof. vm_compute. intuition discriminate. Qed.

(** ** C57, C58: refusals *)
Example refused_target : refusal world good plain Backup (with_data KNone false (repo_at [])).
Proof. now apply Target_not_repository. Qed.
Example refused_restore : refusal world good plain Restore (repo_at [50%Z]).
Proof. now apply Target_not_empty. Qed.
Example refused_removal : refusal world good plain RemoveIncrements source_only.
Proof. apply No_repository; [unfold needs_repo; auto 10|now left]. Qed.
Example marked_repository :
  v_kind (w_view (repo_at [50%Z])) LRepo = KDir /\ v_data (w_view (repo_at [50%Z])) <> KNone /\
  v_nomarker (w_view (repo_at [50%Z])) = false.
Proof. repeat split. discriminate. Qed.

(** ** C59, C62 *)
Example comparing : result (command world good plain Compare (repo_at [50%Z])) = ([], repo_at [50%Z], Some OK).
Proof. vm_compute. reflexivity. Qed.
Example listing : result (command world good plain ListFiles (repo_at [50%Z])) = ([], repo_at [50%Z], Some OK).
Proof. vm_compute. reflexivity. Qed.
Example below : warn_recursion true (bs "/home") (bs "/home/backup") = true.
Proof. vm_compute. reflexivity. Qed.
Example beside : warn_recursion true (bs "/home") (bs "/homes/backup") = false.
Proof. vm_compute. reflexivity. Qed.

(** ** Exceptions *)
(** C57: calculate goes on without the temporary directory (its pre_check calls run) *)
Definition with_tempdir : opts := mk_opts false true false false false false None now.
Theorem C57_calculate_tempdir_refuted :
  exists (E : env world) d, e_tempdir _ E = false /\
    status (snd (command world E with_tempdir CalcAverage d)) = Some OK.
Proof. exists (w_env None true false OK), source_only. vm_compute. split; reflexivity. Qed.

(** C57: a restore with --force over a file deletes the file, and only then finds that the time
    isn't valid or that the repository needs a regress *)
Theorem C57_restore_deletes_then_refuses_refuted :
  let file := with_dir KOther true (repo_at [50%Z]) in
  let broken := with_dir KOther true (repo_at [70%Z; 50%Z]) in
  (In (OpDelete LDir) (s_ops (fst (command world (w_env None false true OK) forced Restore file))) /\
   ~ In OpRestore (s_ops (fst (command world (w_env None false true OK) forced Restore file))) /\
   status (snd (command world (w_env None false true OK) forced Restore file)) = Some ERR) /\
  (In (OpDelete LDir) (s_ops (fst (command world good forced Restore broken))) /\
   ~ In OpRestore (s_ops (fst (command world good forced Restore broken))) /\
   status (snd (command world good forced Restore broken)) = Some ERR).
Proof. vm_compute. intuition discriminate. Qed.

(** C58: without a marker and a lock file, commands which remove or regress clear the repository *)
Theorem C58_removal_clears_refuted :
  let w := with_lock false (repo_at []) in
  In OpCleanFailed (s_ops (fst (command world good plain RemoveIncrements w))) /\
  In OpCleanFailed (s_ops (fst (command world good plain Regress w))).
Proof. vm_compute. auto 30. Qed.

(** C59: a comparison records the quoting if the repository has none *)
Theorem C59_compare_writes_refuted :
  let w := with_conf None false (repo_at [50%Z]) in
  s_ops (fst (command world good plain Compare w)) = [OpSetQuote; OpSetEscapes] /\
  s_disk (fst (command world good plain Compare w)) <> w.
Proof. vm_compute. split; [reflexivity|discriminate]. Qed.

(** C61: a comparison at a time which can't be parsed isn't stopped by the setup *)
Theorem C61_compare_time_refuted :
  status (snd (command world (w_env None false true OK) plain Compare (repo_at [50%Z]))) = Some OK.
Proof. vm_compute. reflexivity. Qed.
(** C61: verify forgets the warnings of the setup, which a listing keeps *)
Theorem C61_verify_warning_refuted :
  status (snd (command world (w_env None true true WARN) plain Verify (repo_at [50%Z]))) = Some OK /\
  status (snd (command world (w_env None true true WARN) plain ListFiles (repo_at [50%Z]))) = Some WARN.
Proof. vm_compute. split; reflexivity. Qed.

Print Assumptions C57_calculate_tempdir_refuted.
Print Assumptions C57_restore_deletes_then_refuses_refuted.
Print Assumptions C58_removal_clears_refuted.
Print Assumptions C59_compare_writes_refuted.
Print Assumptions C61_compare_time_refuted.
Print Assumptions C61_verify_warning_refuted.
