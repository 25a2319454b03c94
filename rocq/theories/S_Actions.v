(** * What a user expects of the commands (specification for C57 to C61) *)
From Coq Require Import List NArith ZArith Bool.
From Verif Require Import Base M_Actions.
Import ListNotations.
Local Open Scope N_scope.

(** the exit status of the process: the code; 1 after an exception or sys.exit; none if the
    process was killed *)
Definition status (x : out N) : option N :=
  match x with Val c => Some c | Exc _ => Some 1 | Quit => Some 1 | Killed => None end.
(** the command says that it failed (or was killed) *)
Definition failed (x : out N) : Prop := forall c, status x = Some c -> N.testbit c 0 = true.

(** where an operation works *)
Definition place (p : op) : loc :=
  match p with
  | OpDelete l | OpMkdir l | OpTestFs l => l
  | OpRestore => LDir
  | _ => LRepo
  end.

(** commands which are only to read *)
Definition reads_only (a : action) : Prop :=
  a = Verify \/ a = ListFiles \/ a = ListIncrements \/ a = CalcAverage \/ a = CalcStatistics \/
  a = Info \/ a = Test.
(** commands which work on an existing repository *)
Definition needs_repo (a : action) : Prop :=
  a = Restore \/ a = Compare \/ a = Verify \/ a = ListFiles \/ a = ListIncrements \/
  a = RemoveIncrements \/ a = RemoveFile \/ a = Regress.

Section Spec.
Variable disk : Type.
Variable E : env disk.
Variable o : opts.

(** Reasons to refuse a command in a world [d] *)
Inductive refusal (a : action) (d : disk) : Prop :=
| Not_connected : e_conn _ E = Val false -> refusal a d
| No_tempdir : a <> CalcAverage -> a <> CalcStatistics ->
    o_tempdir o = true -> e_tempdir _ E = false -> refusal a d
| No_source : a = Backup \/ a = Compare -> v_kind (e_view _ E d) LDir <> KDir -> refusal a d
| No_repository : needs_repo a ->
    v_kind (e_view _ E d) LRepo <> KDir \/ v_data (e_view _ E d) <> KDir -> refusal a d
| Target_not_directory : o_force o = false ->
    a = Backup /\ v_kind (e_view _ E d) LRepo = KOther \/
    a = Restore /\ v_kind (e_view _ E d) LDir = KOther -> refusal a d
| Target_not_repository : a = Backup -> o_force o = false ->
    v_kind (e_view _ E d) LRepo = KDir -> v_empty (e_view _ E d) LRepo = false ->
    v_data (e_view _ E d) = KNone -> refusal a d
| Target_not_empty : a = Restore -> o_force o = false ->
    v_kind (e_view _ E d) LDir = KDir -> v_empty (e_view _ E d) LDir = false -> refusal a d
| Increment_and_time : a = Restore -> e_ref_inc _ E = true -> o_at o = true -> refusal a d
| No_increment : a = Restore -> e_ref_inc _ E = false -> o_increment o = true -> refusal a d
| Selection_below : a = Restore -> o_filesel o = true -> e_ref_index _ E = true -> refusal a d
| Increments_below : a = RemoveIncrements -> e_ref_index _ E = true -> refusal a d
| Not_a_file : a = RemoveFile -> e_ref_index _ E = false -> refusal a d.

(** the world after the operations [l], the operations [done] having happened before *)
Fixpoint replay (done l : list op) (d : disk) : disk :=
  match l with
  | [] => d
  | p :: l' => replay (done ++ [p]) l' (fst (e_eff _ E done p d))
  end.

(** ** The order of a backup session *)
Definition session (first : bool) : list op :=
  if first then [OpApply; OpTouch; OpStats] else [OpTouch; OpApply; OpRemoveMarker; OpStats].
(** what happens before *)
Definition preparing (p : op) : Prop :=
  match p with
  | OpDelete _ | OpMkdir _ | OpCleanFailed | OpMkData | OpMkIncs | OpLock | OpTestFs _
  | OpSetQuote | OpSetEscapes | OpOpenLogs => True
  | _ => False
  end.
(** the lock was taken in the course of the operations, or there is none to take, or --force
    was given *)
Definition locked (pre : list op) (d : disk) : Prop :=
  exists l1 l2, pre = l1 ++ OpLock :: l2 /\
    (o_force o = true \/ e_lock _ E (l1 ++ [OpLock]) (replay [] (l1 ++ [OpLock]) d) <> Some false).
(** The operations [l] are those of [plan] one after the other, up to the first which doesn't end
    with a value (an exception, the end of the process); [true]: all ended well. *)
Inductive follows (done : list op) (d : disk) : list op -> list op -> bool -> Prop :=
| F_end : follows done d [] [] true
| F_stop p plan : (forall c, snd (e_eff _ E done p d) <> Val c) -> follows done d (p :: plan) [p] false
| F_go p plan l b c : snd (e_eff _ E done p d) = Val c ->
    follows (done ++ [p]) (fst (e_eff _ E done p d)) plan l b -> follows done d (p :: plan) (p :: l) b.
(** the repository was found not to need a regress, or it was regressed *)
Definition in_order (pre reg : list op) (d : disk) : Prop :=
  reg = [] /\ e_regress _ E pre (replay [] pre d) = Val NRNo \/
  reg = [OpRegress] /\ e_regress _ E pre (replay [] pre d) = Val NRYes /\
    exists c, snd (e_eff _ E pre OpRegress (replay [] pre d)) = Val c /\ N.testbit c 0 = false.
End Spec.
