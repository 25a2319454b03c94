(** * Power failures and the metadata files

    The files of rdiff-backup-data under power failures: what is written is forced to the
    disk at these places:
    - src/rdiffbackup/meta/__init__.py:274-286 close: a metadata file, when complete, and its
      directory
    - src/rdiffbackup/meta_mgr.py:117-148 recreate_attr (a temporary file forced to the disk,
      renamed, then the directory), 269-286 convert_meta_main_to_diff
    - src/rdiffbackup/locations/_repo_shadow.py:655-677 touch_current_mirror, 681-699
      remove_current_mirror, 1692-1722 regress (sync)

    The operations themselves are those of M_MetaMgr.
    Simplifications: --fsync with directories which can be forced to the disk, or --no-fsync
    (with --fsync, but directories which can't be forced, is left out); forcing a directory
    is taken to force only the name of the file just written; files other than metadata
    files and markers aren't looked at. *)
From Coq Require Import List ZArith Bool.
From Verif Require Import Base M_Iter M_MetaMgr.
From Verif Require M_Power.
Import List ListNotations.
Local Open Scope Z_scope.

Section PowerDir.
Context {D : Type}.
Local Notation mrec := (idx * option D)%type.
Local Notation mfile := (@mfile D).
Local Notation dop := (@dop D).

(** the markers and metadata files: what is there, and what may be found after a power
    failure; cells are those of M_Power *)
Record pdir : Type := mk_pd {
  pmark : Z -> M_Power.cell bool;
  pfile : Z -> mkind -> M_Power.cell (option (list mrec)) }.

Inductive pop : Type :=
| PTouch (t : Z) | PForceMark (t : Z) | PUnmark (t : Z)
| PWrite (f : mfile)          (* in place: until it is forced, anything may be found *)
| PReplace (f : mfile)        (* a file which is on the disk is given the name *)
| PForce (t : Z) (k : mkind)  (* the file and its name *)
| PDel (t : Z) (k : mkind)
| PSync.

Definition kind_eqb (a b : mkind) : bool := match a, b with KSnap, KSnap | KDiff, KDiff => true | _, _ => false end.
Definition on_mark (t : Z) (g : M_Power.cell bool -> M_Power.cell bool) (p : pdir) : pdir :=
  mk_pd (fun x => if x =? t then g (pmark p x) else pmark p x) (pfile p).
Definition on_name (t : Z) (k : mkind) (g : M_Power.cell (option (list mrec)) -> M_Power.cell (option (list mrec))) (p : pdir) : pdir :=
  mk_pd (pmark p) (fun x y => if (x =? t) && kind_eqb y k then g (pfile p x y) else pfile p x y).
Definition run_pop (p : pdir) (o : pop) : pdir :=
  match o with
  | PTouch t => on_mark t (M_Power.push true) p
  | PForceMark t => on_mark t M_Power.settle p
  | PUnmark t => on_mark t (M_Power.push false) p
  | PWrite f => on_name (mf_time f) (mf_kind f) (fun _ => M_Power.mk_cell (Some (mf_recs f)) (fun _ => True)) p
  | PReplace f => on_name (mf_time f) (mf_kind f) (M_Power.push (Some (mf_recs f))) p
  | PForce t k => on_name t k M_Power.settle p
  | PDel t k => on_name t k (M_Power.push None) p
  | PSync => mk_pd (fun t => M_Power.settle (pmark p t)) (fun t k => M_Power.settle (pfile p t k))
  end.
Definition run_pops (l : list pop) (p : pdir) : pdir := fold_left run_pop l p.

(** ** Directories *)
Definition lookup (t : Z) (k : mkind) (files : list mfile) : option (list mrec) :=
  option_map mf_recs (find (same_name t k) files).
Definition marked (t : Z) (d : @ddir D) : bool := existsb (Z.eqb t) (markers d).
(** a directory completely on the disk *)
Definition of_dir (d : ddir) : pdir :=
  mk_pd (fun t => M_Power.mk_cell (marked t d) (eq (marked t d)))
        (fun t k => M_Power.mk_cell (lookup t k (mfiles d)) (eq (lookup t k (mfiles d)))).
(** what may be found after a power failure *)
Definition found (p : pdir) (d : ddir) : Prop :=
  NoDup (markers d) /\ NoDup (map (fun f => (mf_time f, mf_kind f)) (mfiles d)) /\
  (forall t, M_Power.poss (pmark p t) (marked t d)) /\
  (forall t k, M_Power.poss (pfile p t k) (lookup t k (mfiles d))).

(** ** What the operations of a session and of a regress are on the disk *)
Section Force.
(** --fsync (default) or --no-fsync (generics.do_fsync) *)
Variable force : bool.
Definition forced (l : list pop) : list pop := if force then l else [].

(** is the file complete, so that it's closed?  meta/__init__.py:274-286 *)
Definition last_write (f : mfile) (rest : list dop) : bool :=
  match rest with DPut g :: _ => negb (same_name (mf_time f) (mf_kind f) g) | _ => true end.
(** a session: 655-677 marker written and forced; files written in place, forced when
    closed; 269-286 the old snapshot deleted after the diff is closed; 681-699 everything
    forced before the old marker goes *)
Fixpoint session_pops (l : list dop) : list pop :=
  match l with
  | [] => []
  | o :: l' =>
      match o with
      | DTouch t => PTouch t :: forced [PForceMark t]
      | DUnmark t => forced [PSync] ++ [PUnmark t]
      | DPut f => PWrite f :: (if last_write f l' then forced [PForce (mf_time f) (mf_kind f)] else [])
      | DDel t k => [PDel t k]
      | _ => []
      end ++ session_pops l'
  end.
(** a regress: 117-148 the snapshot is written to a temporary file, forced and renamed;
    1866-1906 deletions; 1715-1721 sync, then the marker *)
Fixpoint regress_pops (l : list dop) : list pop :=
  match l with
  | [] => []
  | o :: l' =>
      match o with
      | DUnmark t => forced [PSync] ++ [PUnmark t]
      | DPut f => if force then [PReplace f; PForce (mf_time f) (mf_kind f)] else [PWrite f]
      | DDel t k => [PDel t k]
      | _ => []
      end ++ regress_pops l'
  end.
End Force.
End PowerDir.
