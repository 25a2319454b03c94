(** * What a backup has to record (specification for C35, C36)

    A backup is a sequence of operations [op] (M_CCPP): pairs (file of the source, file of
    the mirror) are pulled from the listing; later each file is reported as updated,
    deleted or changed, and its checksum is reported. *)
From Coq Require Import List ZArith Bool Ascii.
From Verif Require Import Base M_Iter L_Iter P_Iter M_CCPP.
Import List ListNotations.

(** the pairs listed, in order *)
Fixpoint pulled (l : list op) : list cpair :=
  match l with
  | [] => []
  | Pull p :: r => p :: pulled r
  | _ :: r => pulled r
  end.

(** path of a pair *)
Definition pidx (p : cpair) : idx :=
  match p with
  | (Some s, None) => q_index s
  | (_, Some d) => q_index d
  | (None, None) => []
  end.

(** how did the patching of a path end? *)
Inductive outcome : Type := Untouched | Updated | Deleted.
Fixpoint outcome_of (i : idx) (l : list op) (last : outcome) : outcome :=
  match l with
  | [] => last
  | FlagSuccess j :: r => outcome_of i r (if idx_eqb i j then Updated else last)
  | FlagDeleted j :: r => outcome_of i r (if idx_eqb i j then Deleted else last)
  | _ :: r => outcome_of i r last
  end.

(** last checksum reported *)
Fixpoint hash_of (i : idx) (l : list op) (last : option bytes) : option bytes :=
  match l with
  | [] => last
  | UpdateHash j h :: r => hash_of i r (if idx_eqb i j then Some h else last)
  | _ :: r => hash_of i r last
  end.

Fixpoint reported_changed (i : idx) (l : list op) : bool :=
  match l with
  | [] => false
  | FlagChanged j :: r => idx_eqb i j || reported_changed i r
  | _ :: r => reported_changed i r
  end.

(** the source file with the checksum found while it was copied *)
Definition with_hash (l : list op) (p : cpair) : option crorp :=
  match fst p, hash_of (pidx p) l None with
  | Some r, Some h => Some (set_sha r h)
  | o, _ => o
  end.

Definition existing (o : option crorp) : list crorp :=
  match o with Some r => if q_there r then [r] else [] | None => [] end.

(** What has to be in the metadata file about a pair: the new file, if the mirror was
    updated; nothing if the file was deleted; what was in the mirror before in any other
    case (unchanged, or failed). *)
Definition to_record (l : list op) (p : cpair) : list crorp :=
  match outcome_of (pidx p) l Untouched with
  | Untouched => existing (snd p)
  | Updated => existing (with_hash l p)
  | Deleted => []
  end.

(** the metadata records written *)
Fixpoint written (l : list event) : list crorp :=
  match l with
  | [] => []
  | Write r :: rest => r :: written rest
  | _ :: rest => written rest
  end.

(** what an operation is about *)
Definition about (o : op) : option idx :=
  match o with
  | Pull _ => None
  | FlagSuccess i | FlagDeleted i | FlagChanged i | SetInc i _ | UpdateHash i _ => Some i
  end.

(** The pairs are the collated listing of two trees: in order, the root first and both in the mirror,
    every other pair has its directory in the listing. *)
Definition pair_dir (p : cpair) : bool := is_dir (fst p) || is_dir (snd p).
Record tree_pairs (l : list cpair) : Prop := {
  tp_sorted : listing pidx l;
  tp_same : forall s d, In (Some s, Some d) l -> q_index s = q_index d;
  tp_some : ~ In (None, None) l;
  tp_root : forall p, In p l -> pidx p = [] -> snd p <> None /\ pair_dir p = true;
  tp_parent : forall p n, In p l -> n < length (pidx p) ->
      exists q, In q l /\ pidx q = firstn n (pidx p) /\ pair_dir q = true }.

(** Each operation comes while its file is one of the last [size] listed ones, and
    checksums are only reported for files of the source. *)
Definition lastn {T} (n : nat) (l : list T) : list T := skipn (length l - n) l.
Definition in_time (size : nat) (l : list op) : Prop :=
  forall h o t i, l = h ++ o :: t -> about o = Some i ->
    exists p, In p (lastn size (pulled h)) /\ pidx p = i /\
      (forall x, o = UpdateHash i x -> fst p <> None).
