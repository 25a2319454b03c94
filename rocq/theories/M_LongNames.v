(** * Replacement names for long file names
    (src/rdiffbackup/locations/map/longnames.py) *)
From Coq Require Import List ZArith Bool Ascii.
From Verif Require Import Base M_Iter.
Import List ListNotations.
Local Open Scope Z_scope.

(** The long_filename_data directory: the names in it apart from "next_free", the
    content of "next_free", and the counter _free_name_counter of the process. *)
Record ln : Type := mk_ln {
  n_files : list bytes;
  n_next : option bytes;
  n_mem : option Z }.

Definition dot : ascii := ".".
(** filename.split(b".")[0] *)
Definition base_of (f : bytes) : bytes := fst (break_on dot f).
Definition mem_name (x : bytes) (l : list bytes) : bool := existsb (beq_bytes x) l.

(** 272-285 scan_next_free.  int() is [parse_Z] (no blanks or underscores); the name
    "next_free" itself is not a number *)
Fixpoint scan_high (l : list bytes) (cur : Z) : Z :=
  match l with
  | [] => cur
  | f :: r =>
      scan_high r (match parse_Z (base_of f) with
                   | Some i => if cur <? i then i else cur
                   | None => cur
                   end)
  end.
Definition scan_next_free (s : ln) : Z := scan_high (n_files s) 0 + 1.

(** 287-294 read_next_free, and 307-315: the counter to use; 0 counts as no counter;
    [None]: ValueError from int() *)
Definition counter (s : ln) : option Z :=
  match n_mem s with
  | Some (Zpos p) => Some (Zpos p)
  | Some (Zneg p) => Some (Zneg p)
  | _ =>
      match n_next s with
      | None => Some (scan_next_free s)
      | Some c =>
          match parse_Z c with
          | None => None
          | Some 0 => Some (scan_next_free s)
          | Some z => Some z
          end
      end
  end.

(** 266-315 _get_next_free_filename.  The list holds the states of the disk on the way
    (write_next_free, 309-317: delete the old file, create the new one, write it); an
    interruption leaves one of them.  [None]: ValueError or AssertionError *)
Definition next_free_filename (s : ln) : option (bytes * list ln * ln) :=
  match counter s with
  | None => None
  | Some c =>
      let name := dec_Z c in
      if mem_name name (n_files s) then None
      else
        let d x := mk_ln (n_files s) x None in
        Some (name,
              match n_next s with Some _ => [d (n_next s)] | None => [] end ++ [d None; d (Some [])],
              mk_ln (n_files s) (Some (dec_Z (c + 1))) (Some (c + 1)))
  end.

(** ** Which names a file is stored under *)
Record lrorp : Type := mk_lrorp { l_index : idx; l_alt_mirror : option bytes; l_alt_inc : option bytes }.
(** where: in the mirror, in the increments directory, or in the long name directory *)
Inductive loc : Type := InMirror (i : idx) | InIncs (i : idx) | InLong (n : bytes).

Section Pair.
(** _check_new_index (318-359) says "too long" *)
Variable mirror_long : idx -> bool.
Variable inc_long : idx -> bool.   (* of the name with 50 more characters *)

(** 98-181 get_mirror_inc_rps for a new and an old file (which exist when given);
    [next] is what _get_next_free_filename would return, the flag tells whether it was
    called.  Result: mirror place, place (base name) of the increments, new_rorp as
    updated.  [None]: FatalError *)
Definition find_inc (i : idx) (mirror : loc) (alt_mirror alt_inc : option bytes) (next : bytes)
  : option bytes * loc * bool :=
  match alt_mirror, alt_inc with
  | Some _, _ => (None, mirror, false)
  | None, Some a => (Some a, InLong a, false)
  | None, None =>
      match i with
      | [] => (None, InIncs [], false)
      | _ => if inc_long i then (Some next, InLong next, true) else (None, InIncs i, false)
      end
  end.
Definition update_rorp (new : option lrorp) (alt_mirror alt_inc : option bytes) : option lrorp :=
  match new with
  | None => None
  | Some r =>
      Some (match alt_mirror, alt_inc with
            | Some a, _ => mk_lrorp (l_index r) (Some a) (l_alt_inc r)
            | None, Some a => mk_lrorp (l_index r) (l_alt_mirror r) (Some a)
            | None, None => r
            end)
  end.
Definition mirror_inc (new old : option lrorp) (next : bytes) : option (loc * loc * option lrorp * bool) :=
  match old, new with
  | Some o, _ =>
      let '(mirror, am, ai) :=
        match l_alt_mirror o with
        | Some a => (InLong a, Some a, None)
        | None => (InMirror (l_index o), None, l_alt_inc o)
        end in
      let '(ai', inc, used) := find_inc (l_index o) mirror am ai next in
      Some (mirror, inc, update_rorp new am ai', used)
  | None, Some r =>
      let '(mirror, am, used0) :=
        if mirror_long (l_index r) then (InLong next, Some next, true) else (InMirror (l_index r), None, false) in
      let '(ai', inc, used) := find_inc (l_index r) mirror am None next in
      Some (mirror, inc, update_rorp new am ai', used0 || used)
  | None, None => None
  end.
End Pair.

(** Where a restore or a regress looks for the increments (update_rf, 184-250) and for
    the mirror file (get_mirror_rp, 67-82; make_new_rf) of a file with this metadata *)
Definition look_inc (r : lrorp) : loc :=
  match l_alt_mirror r, l_alt_inc r with
  | Some a, _ => InLong a
  | None, Some a => InLong a
  | None, None => InIncs (l_index r)
  end.
Definition look_mirror (r : lrorp) : loc :=
  match l_alt_mirror r with Some a => InLong a | None => InMirror (l_index r) end.
