(** * Single calls of the program on a repository

    M_Global describes events (an interrupted session together with the regress
    which follows); here every call is a step of its own, so that calls can follow each
    other in any order, interrupted or not.

    Models
    - src/rdiffbackup/actions/backup.py:107-160 (check, setup, run)
    - src/rdiffbackup/actions/regress.py:67-140, actions/__init__.py:657-693
      _operate_regress
    - src/rdiffbackup/actions/remove.py:140-185 *)
From Coq Require Import List ZArith Bool.
From Verif Require Import Base M_Core M_Crash M_Iter M_MetaMgr M_Global.
Import List ListNotations.
Local Open Scope Z_scope.

Section Life.
Context {attr : Type}.
Variable delta : bytes -> bytes -> bytes.
Variable patch : bytes -> bytes -> option bytes.
Variable sha1 : attr -> bytes -> option bytes.
Variable same : attr -> attr -> bool.
Variable loose : attr -> attr -> bool.
Variable deq : meta attr -> meta attr -> bool.
(** the attributes of a file as read from the file system *)
Variable fa : attr -> attr.

Inductive action : Type :=
(** a call of backup, completed or killed *)
| ASession (t : Z) (src : @tree attr) (o : idx -> outcome attr) (zd : @dnoise (meta attr))
| AKilled (t : Z) (src : @tree attr) (o : idx -> outcome attr) (z : idx -> noise attr)
          (zd : @dnoise (meta attr)) (kd : nat) (kp : idx -> nat)
(** the same as long as there is no session *)
| AFirst (t : Z) (src : @tree attr) (o : idx -> outcome attr) (zd : @dnoise (meta attr))
| AFirstKilled (y : @try attr)
(** the regress at the begin of a call, completed or killed *)
| ARegress (used : bool) (z : idx -> noise attr)
| ARegressKilled (used : bool) (z : idx -> noise attr) (kd : nat) (kp : idx -> nat)
(** remove increments --older-than *)
| ARemove (rt : Z) (used : bool)
(** the same, killed *)
| ARemoveKilled (rt : Z) (used : bool)
(** the begin of regress --force *)
| AForce.

(** the last session which was completed: _repo_shadow.py:1693-1722, the older of two
    markers, else the only one *)
Definition last_good (d : @ddir (meta attr)) : Z :=
  match two_markers d with Some (_, good) => good | None => mirror_time d end.

(** [l'] is [l] without some of the elements which are [old] *)
Inductive thinned {A : Type} (old : A -> bool) : list A -> list A -> Prop :=
| Th_nil : thinned old [] []
| Th_keep x l l' : thinned old l l' -> thinned old (x :: l) (x :: l')
| Th_del x l l' : old x = true -> thinned old l l' -> thinned old (x :: l) l'.

(** _repo_shadow.py:1244-1249: the files are deleted one after the other, in the order of
    the listings of the directories; after a kill any of them may be left.  [used]: whether
    increments remain. *)
Definition cut_remove (rt : Z) (used : bool) (r r' : @repo attr) : Prop :=
  thinned (fun t => t <? rt) (markers (r_data r)) (markers (r_data r')) /\
  thinned (fun f => mf_time f <? rt) (mfiles (r_data r)) (mfiles (r_data r')) /\
  thinned (fun t => t <? rt) (others (r_data r)) (others (r_data r')) /\
  incs_used (r_data r') = incs_used (r_data r) && used /\
  forall p, fst (r_path r' p) = fst (r_path r p) /\
    thinned (fun x => fst x <? rt) (snd (r_path r p)) (snd (r_path r' p)).

(** What a call does.  backup.py:107-126: with a session in the repository the files of
    the source are compared with the metadata of that, without one with the files found
    (M_Global).  Regress starts only if it is found to be needed (1635-1690).
    remove.py:152-165 doesn't look for an interrupted session; a time after the last
    completed one isn't covered here.  _operate_regress calls force_regress only if no
    regress is needed; that it can also be called in vain for an interrupted session
    with an empty increments directory isn't covered. *)
Definition act (a : action) (r r' : @repo attr) : Prop :=
  match a with
  | ASession t src o zd => markers (r_data r) <> [] /\ gsession delta sha1 same deq t src o zd r = Some r'
  | AKilled t src o z zd kd kp => gcrash delta sha1 same deq t src o z zd kd kp r = Some r'
  | AFirst t src o zd => exists found, scan_of r found /\ gfirst delta sha1 same deq fa found t src o zd r = Some r'
  | AFirstKilled y => exists found, scan_of r found /\ first_crash delta sha1 same deq fa found y r = Some r'
  | ARegress used z => needs_regress (r_data r) false false = NRYes /\
      exists good l prog, regress_plan patch sha1 loose used z r good l prog /\ r' = regress_full good l prog r
  | ARegressKilled used z kd kp => needs_regress (r_data r) false false = NRYes /\
      exists good l prog, regress_plan patch sha1 loose used z r good l prog /\ r' = regress_part good l prog kd kp r
  | ARemove rt used => markers (r_data r) <> [] /\ rt <= last_good (r_data r) /\ r' = gremove rt used r
  | ARemoveKilled rt used => markers (r_data r) <> [] /\ rt <= last_good (r_data r) /\ cut_remove rt used r r'
  | AForce => length (markers (r_data r)) = 1%nat /\ gforce r = Some r'
  end.
End Life.
