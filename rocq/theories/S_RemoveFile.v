(** * What removing a path from the repository has to do *)
From Coq Require Import List ZArith Bool Ascii Lia.
From Verif Require Import Base M_Iter M_Quoting M_Time M_IncName M_Rorp S_Meta M_Meta M_EaAcl S_EaAcl M_CCPP M_FileStats S_FileStats M_RemoveFile.
Import List ListNotations.
Local Open Scope Z_scope.

(** [q] is the path [p] or something below it *)
Fixpoint at_or_below (p q : idx) : bool :=
  match p, q with
  | [], _ => true
  | a :: p', b :: q' => beq_bytes a b && at_or_below p' q'
  | _ :: _, [] => false
  end.

(** a metadata file, by what it is about *)
Inductive mfile : Type :=
| Attributes (hl : bool) (l : list rorp)
| Extended (l : list eas)
| Acls (l : list acl)
| Statistics (l : list written).

(** as it is written *)
Fixpoint all_written (l : list (option bytes)) : option (list bytes) :=
  match l with
  | [] => Some []
  | Some r :: l' => option_map (cons r) (all_written l')
  | None :: _ => None
  end.
Definition stored_file (f : mfile) : option (mkind * bytes) :=
  match f with
  | Attributes hl l => option_map (fun rs => (MirrorMetadata, write_file rs)) (all_written (map (attr_record hl) l))
  | Extended l => Some (ExtendedAttributes, ea_file l)
  | Acls l => option_map (fun c => (AccessControlLists, c)) (acl_file l)
  | Statistics l => Some (FileStatistics, concat (map (fun x => x ++ [nl]) (header ++ map line_of l)))
  end.

(** the same file without what is about [p] and what is below *)
Definition without (p : idx) (f : mfile) : mfile :=
  match f with
  | Attributes hl l => Attributes hl (filter (fun x => negb (at_or_below p (r_index x))) l)
  | Extended l => Extended (filter (fun x => negb (at_or_below p (ea_index x))) l)
  | Acls l => Acls (filter (fun x => negb (at_or_below p (a_index x))) l)
  | Statistics l => Statistics (filter (fun x => negb (at_or_below p (w_index x))) l)
  end.

(** has a record about [p] or something below *)
Definition speaks_of (p : idx) (f : mfile) : Prop :=
  match f with
  | Attributes hl l => exists x, In x l /\ at_or_below p (r_index x) = true
  | Extended l => exists x, In x l /\ ea_dict x <> [] /\ at_or_below p (ea_index x) = true
  | Acls l => exists x, In x l /\ extended x = true /\ at_or_below p (a_index x) = true
  | Statistics l => exists x, In x l /\ at_or_below p (w_index x) = true
  end.

(** the names in the directory of long names which these records give *)
Definition long_name (d : dict) : list bytes :=
  match d KType, d KMirrorname, d KIncname with
  | Some VNone, _, _ => []
  | _, Some (VStr s), _ => [s]
  | _, None, Some (VStr s) => [s]
  | _, _, _ => []
  end.
Definition long_names (p : idx) (f : mfile) : list bytes :=
  match f with
  | Attributes _ l => flat_map (fun x => long_name (r_data x)) (filter (fun x => at_or_below p (r_index x)) l)
  | _ => []
  end.

(** files which can be met: see C11, C31, C42 for the conditions.  For the file statistics: no
    path there continues the name of [p] with a space, nor the other way round. *)
Definition well_formed (p : idx) (f : mfile) : Prop :=
  match f with
  | Attributes _ l => forall x, In x l -> good_path (r_index x) /\ (described (r_data x) \/ nothing (r_data x))
                        /\ forall s, In s (long_name (r_data x)) -> ~ In " "%char s /\ ~ In "\"%char s
  | Extended l => Forall plain_eas l
  | Acls l => Forall acl_ok l
  | Statistics l => Forall good_entry l /\ starts_with (bs "#") (index_path p) = false
      /\ forall x, In x l -> at_or_below p (w_index x) = true \/
           (starts_with (index_path p ++ bs " ") (index_path (w_index x)) = false
            /\ starts_with (index_path (w_index x) ++ bs " ") (index_path p) = false)
  end.

(** an entry of the increments directory is an increment of the path [q] *)
Definition increment_of (x q : idx) : Prop :=
  exists d n b, x = d ++ [n] /\ q = d ++ [b] /\ exists c ts t ty, parse_increment_name n = Some (c, ts, t, ty, b).

(** all files as they are written *)
Fixpoint stored_files (l : list mfile) : option (list (mkind * bytes)) :=
  match l with
  | [] => Some []
  | f :: l' => match stored_file f, stored_files l' with Some x, Some xs => Some (x :: xs) | _, _ => None end
  end.

(** with an entry, the directories it lies in exist *)
Definition tree_like (area : list idx) : Prop := forall x d n, In x area -> x = d ++ n -> d <> [] -> In d area.

(** the entry [x] of this area is [q], or an increment of [q], or lies below one of these *)
Definition belongs_to (area : list idx) (q x : idx) : Prop :=
  at_or_below q x = true \/ exists y, In y area /\ increment_of y q /\ at_or_below y x = true.

(** no directory has the name of an increment (finding: an increments directory gets the name of
    the source directory, whatever that is) *)
Definition no_odd_directory (area : list idx) : Prop :=
  forall d n x, In (d ++ [n]) area -> In x area -> parse_increment_name n <> None ->
    at_or_below (d ++ [n]) x = true -> x = d ++ [n].
