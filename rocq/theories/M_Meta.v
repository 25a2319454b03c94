(** * The metadata files

    Models src/rdiffbackup/meta/__init__.py: FlatExtractor and FlatFile, and
    src/rdiffbackup/meta/stdattr.py: AttrExtractor and AttrFile. *)
From Coq Require Import List ZArith Bool Ascii Lia.
From Verif Require Import Base M_Quoting M_Iter M_Rorp.
Import List ListNotations.
Local Open Scope Z_scope.

(** ** FlatExtractor, for any kind of records *)
Section Flat.
(** The text which opens a record: "# file: " (__init__.py:41) or "File " (stdattr.py:67). *)
Variable hdr : bytes.
Context {Ob : Type}.
(** _filename_to_index *)
Variable name_to_index : bytes -> idx.
(** _record_to_object; None stands for ParsingError or ValueError *)
Variable parse : bytes -> option Ob.
Variable index_of : Ob -> idx.
(** The number of bytes returned by the n-th call of fileobj.read(blocksize),
    unless the end of the file comes first; the program reads 32768 bytes, only
    "more than none" is used. *)
Variable size : nat -> nat.

(** the file object: what remains to be read, and the number of reads done *)
Record fobj : Type := mk_fobj { fo_rest : bytes; fo_reads : nat }.
Definition fread (f : fobj) : bytes * fobj :=
  (firstn (size (fo_reads f)) (fo_rest f),
   mk_fobj (skipn (size (fo_reads f)) (fo_rest f)) (S (fo_reads f))).
Definition freadline (f : fobj) : bytes * fobj :=
  match break_on nl (fo_rest f) with
  | (l, Some r) => (l ++ [nl], mk_fobj r (fo_reads f))
  | (l, None) => (l, mk_fobj [] (fo_reads f))
  end.

(** the groups (HDR(.*?))\n of record_boundary_regexp matched at the beginning of
    [s]: the file name (group 2) *)
Definition header_at (s : bytes) : option bytes :=
  if starts_with hdr s then
    match break_on nl (skipn (length hdr) s) with (n, Some _) => Some n | (_, None) => None end
  else None.
(** record_boundary_regexp.search through the alternative "\n": position of group
    1 and file name *)
Fixpoint search_nl (s : bytes) : option (nat * bytes) :=
  match s with
  | [] => None
  | c :: r =>
      match (if Ascii.eqb c nl then header_at r else None) with
      | Some n => Some (1%nat, n)
      | None => option_map (fun '(p, n) => (S p, n)) (search_nl r)
      end
  end.
(** search(buf, 1): "^" only matches at the real beginning, hence not from 1 on *)
Definition search_from_1 (s : bytes) : option (nat * bytes) :=
  match s with
  | [] => None
  | _ :: r => option_map (fun '(p, n) => (S p, n)) (search_nl r)
  end.
(** search(buf) *)
Definition search (s : bytes) : option (nat * bytes) :=
  match header_at s with Some n => Some (0%nat, n) | None => search_nl s end.

(** buffer, file *)
Local Notation ext := (bytes * fobj)%type.

(** __init__.py:139-151 _get_next_pos: the position, at_end, the new state.  The
    fuel is the number of reads allowed, see [next_pos]. *)
Fixpoint get_next_pos (fuel : nat) (e : ext) : nat * bool * ext :=
  let '(buf, f) := e in
  match search_from_1 buf with
  | Some (p, _) => (p, false, e)
  | None =>
      let '(b, f') := fread f in
      match b, fuel with
      | [], _ | _, 0%nat => (length buf, true, (buf, f'))
      | _, S fuel' => get_next_pos fuel' (buf ++ b, f')
      end
  end.
(** every read returns at least one of the remaining bytes *)
Definition next_pos (e : ext) : nat * bool * ext := get_next_pos (length (fo_rest (snd e))) e.

(** 69-79 _iterate_records, with the value of at_end when the record is yielded.
    Each record takes at least one byte. *)
Fixpoint records (fuel : nat) (e : ext) : list (bytes * bool) :=
  match fuel with
  | 0%nat => []
  | S fuel' =>
      let '(p, at_end, (buf, f)) := next_pos e in
      if at_end then (if Nat.eqb p 0 then [] else [(firstn p buf, true)])
      else (firstn p buf, false) :: records fuel' (skipn p buf, f)
  end.
(** 53-67 iterate *)
Fixpoint iterate_objs (l : list (bytes * bool)) : list Ob :=
  match l with
  | [] => []
  | (r, at_end) :: l' =>
      match parse r with
      | Some o => o :: iterate_objs l'
      | None => if at_end then [] else iterate_objs l'
      end
  end.
Definition iterate (content : bytes) : list Ob :=
  iterate_objs (records (S (length content)) ([], mk_fobj content 0)).

(** 118-131: the inner loop of _skip_to_index on one buffer: the buffer at the
    record found.  Each round takes at least the header off the buffer. *)
Fixpoint skip_in_buf (fuel : nat) (index : idx) (buf : bytes) : option bytes :=
  match fuel with
  | 0%nat => None
  | S fuel' =>
      match search buf with
      | None => None
      | Some (p, n) =>
          if idx_ltb (name_to_index n) index
          then skip_in_buf fuel' index (skipn (p + length hdr + length n) buf)
          else Some (skipn p buf)
      end
  end.
(** 105-130 _skip_to_index: None if at the end *)
Fixpoint skip_to_index (fuel : nat) (index : idx) (f : fobj) : option ext :=
  match fuel with
  | 0%nat => None
  | S fuel' =>
      let '(b1, f1) := fread f in
      let '(b2, f2) := freadline f1 in
      let buf := b1 ++ b2 in
      match buf with
      | [] => None
      | _ =>
          match skip_in_buf (S (length buf)) index buf with
          | Some buf' => Some (buf', f2)
          | None => skip_to_index fuel' index f2
          end
      end
  end.
(** 81-103 _iterate_starting_with *)
Fixpoint starting_loop (fuel : nat) (index : idx) (e : ext) : list Ob :=
  match fuel with
  | 0%nat => []
  | S fuel' =>
      let '(p, at_end, (buf, f)) := next_pos e in
      let go := if at_end : bool then [] else starting_loop fuel' index (skipn p buf, f) in
      match parse (firstn p buf) with
      | None => go
      | Some o => if is_prefix index (index_of o) then o :: go else []
      end
  end.
Definition starting_with (index : idx) (content : bytes) : list Ob :=
  match skip_to_index (S (length content)) index (mk_fobj content 0) with
  | None => []
  | Some e => starting_loop (S (length content)) index e
  end.
(** 267-272 get_objects *)
Definition get_objects (restrict : option idx) (content : bytes) : list Ob :=
  match restrict with
  | None | Some [] => iterate content
  | Some index => starting_with index content
  end.
End Flat.

(** ** Writing: FlatFile (263-265 write_object, 288-300 _write_record, 274-286 close):
    records are joined and written in groups of 100; the content of the file. *)
Definition MAX_BUFFER : nat := 100.
Fixpoint write_loop (written : bytes) (buffer : list bytes) (l : list bytes) : bytes :=
  match l with
  | [] => written ++ concat buffer                       (* close *)
  | r :: l' =>
      let buffer := buffer ++ [r] in
      if Nat.leb MAX_BUFFER (length buffer)
      then write_loop (written ++ concat buffer) [] l'
      else write_loop written buffer l'
  end.
Definition write_file (records : list bytes) : bytes := write_loop [] [] records.

(** ** stdattr.py *)
(** 92-98 _filename_to_index *)
Definition attr_index (q : bytes) : idx :=
  if beq_bytes q (bs ".") then [] else split_on (chr 47) (unquote_path q).
(** rpath.py:428-436 get_indexpath.  Simplification: components are joined by "/" (os.path.join
    would restart at a component with a leading "/", which no index has). *)
Definition index_path (i : idx) : bytes :=
  match i with [] => bs "." | _ => join_with (bs "/") i end.

Definition is_alnum (c : ascii) : bool :=
  let n := ord c in
  ((48 <=? n)%N && (n <=? 57)%N) || ((65 <=? n)%N && (n <=? 90)%N) || ((97 <=? n)%N && (n <=? 122)%N).
Fixpoint span {A} (f : A -> bool) (l : list A) : list A * list A :=
  match l with
  | x :: r => if f x then let '(a, b) := span f r in (x :: a, b) else ([], l)
  | [] => ([], [])
  end.
(** 68 line_parsing_regexp "^ *([A-Za-z0-9]+) (.+)$" on one line *)
Definition parse_line (l : bytes) : option (bytes * bytes) :=
  let '(_, l1) := span (Ascii.eqb (chr 32)) l in
  let '(w, l2) := span is_alnum l1 in
  match w, l2 with
  | _ :: _, c :: (d :: v) => if Ascii.eqb c (chr 32) then Some (w, d :: v) else None
  | _, _ => None
  end.
(** findall with re.M: every line by itself *)
Fixpoint fields_of (lines : list bytes) : list (bytes * bytes) :=
  match lines with
  | [] => []
  | l :: ls => match parse_line l with Some fv => fv :: fields_of ls | None => fields_of ls end
  end.

(** 71-89 the two mappings *)
Definition int_key (f : bytes) : option key :=
  if beq_bytes f (bs "Size") then Some KSize
  else if beq_bytes f (bs "NumHardLinks") then Some KNlink
  else if beq_bytes f (bs "Inode") then Some KInode
  else if beq_bytes f (bs "DeviceLoc") then Some KDevloc
  else if beq_bytes f (bs "ModTime") then Some KMtime
  else if beq_bytes f (bs "Uid") then Some KUid
  else if beq_bytes f (bs "Gid") then Some KGid
  else if beq_bytes f (bs "Permissions") then Some KPerms
  else None.
Definition str_key (f : bytes) : option key :=
  if beq_bytes f (bs "Type") then Some KType
  else if beq_bytes f (bs "SHA1Digest") then Some KSha1
  else if beq_bytes f (bs "Uname") then Some KUname
  else if beq_bytes f (bs "Gname") then Some KGname
  else None.

(** 110-150: one field.  Strings are kept as bytes: decoding (ASCII or UTF-8) undoes the
    encoding of the writer.  int() of Python also accepts a sign, spaces and
    underscores, which are never written.  The macOS fields ResourceFork and
    CarbonFile are not modelled (like an unknown field they are skipped). *)
Definition add_field (acc : option (option idx * dict)) (fv : bytes * bytes) : option (option idx * dict) :=
  match acc with
  | None => None
  | Some (i, d) =>
      let '(f, v) := fv in
      match int_key f with
      | Some k => match parse_Z v with Some z => Some (i, set d k (VInt z)) | None => None end
      | None =>
      match str_key f with
      | Some k =>
          Some (i, set d k (if beq_bytes v (bs ":") || beq_bytes v (bs "None") then VNone else VStr v))
      | None =>
          if beq_bytes f (bs "File") then Some (Some (attr_index v), d)
          else if beq_bytes f (bs "SymData") then Some (i, set d KLinkname (VStr (unquote_path v)))
          else if beq_bytes f (bs "DeviceNum") then
            match split_on (chr 32) v with
            | [c; a; b] =>
                match parse_Z a, parse_Z b with
                | Some a, Some b => Some (i, set d KDevnums (VDev c a b))
                | _, _ => None
                end
            | _ => None
            end
          else if beq_bytes f (bs "AlternateMirrorName") then Some (i, set d KMirrorname (VStr v))
          else if beq_bytes f (bs "AlternateIncrementName") then Some (i, set d KIncname (VStr v))
          else Some (i, d)
      end end
  end.
(** 99-152 _record_to_object.  A record without a name (UnboundLocalError in
    Python) also gives None; RORPath(index, {}) is of type None (rpath.py:125-129). *)
Definition attr_parse (r : bytes) : option rorp :=
  match fold_left add_field (fields_of (split_on nl r)) (Some (None, empty_dict)) with
  | Some (Some i, d) =>
      Some (mk_rorp i (if existsb (has d) all_keys then d else set empty_dict KType VNone))
  | _ => None
  end.

(** 164-238 _object_to_record; None stands for a KeyError or a TypeError (a value
    needed isn't there or isn't of the right kind).  [hl] is generics.preserve_hardlinks. *)
Definition line (f v : bytes) : bytes := bs "  " ++ f ++ bs " " ++ v ++ [nl].
Definition int_line (f : bytes) (o : option val) : option bytes :=
  match o with Some (VInt z) => Some (line f (dec_Z z)) | _ => None end.
Definition str_line (f : bytes) (o : option val) : option bytes :=
  match o with Some (VStr s) => Some (line f s) | _ => None end.
(** getuname() or ":" *)
Definition name_line (f : bytes) (o : option val) : option bytes :=
  match o with
  | Some (VStr (c :: s)) => Some (line f (c :: s))
  | None | Some VNone | Some (VStr []) => Some (line f (bs ":"))
  | _ => None
  end.
Definition cat2 (a b : option bytes) : option bytes :=
  match a, b with Some x, Some y => Some (x ++ y) | _, _ => None end.
Local Notation "a +++ b" := (cat2 a b) (at level 60, right associativity).

Definition common_lines (with_mtime : bool) (d : dict) : option bytes :=
  (if with_mtime then int_line (bs "ModTime") (d KMtime) else Some [])
  +++ int_line (bs "Uid") (d KUid)
  +++ name_line (bs "Uname") (d KUname)
  +++ int_line (bs "Gid") (d KGid)
  +++ name_line (bs "Gname") (d KGname)
  +++ int_line (bs "Permissions") (match d KPerms with Some v => Some v | None => Some (VInt 0) end)
  +++ (match d KMirrorname, d KIncname with
       | Some v, _ => str_line (bs "AlternateMirrorName") (Some v)
       | None, Some v => str_line (bs "AlternateIncrementName") (Some v)
       | None, None => Some []
       end).
Definition reg_lines (hl : bool) (d : dict) : option bytes :=
  int_line (bs "Size") (d KSize)
  +++ (if hl then
         match getnumlinks d with
         | VInt n =>
             if 1 <? n then
               Some (line (bs "NumHardLinks") (dec_Z n))
               +++ int_line (bs "Inode") (d KInode)
               +++ int_line (bs "DeviceLoc") (d KDevloc)
             else Some []
         | _ => None
         end
       else Some [])
  +++ (match d KSha1 with Some v => str_line (bs "SHA1Digest") (Some v) | None => Some [] end).
Definition attr_record (hl : bool) (x : rorp) : option bytes :=
  let d := r_data x in
  Some (bs "File " ++ quote_path (index_path (r_index x)) ++ [nl]) +++
  match d KType with
  | Some VNone => Some (line (bs "Type") (bs "None"))
  | Some (VStr t) =>
      Some (line (bs "Type") t) +++
      (if beq_bytes t (bs "reg") then reg_lines hl d +++ common_lines true d
       else if beq_bytes t (bs "None") then Some []
       else if beq_bytes t (bs "sym") then
         match d KLinkname with
         | Some (VStr l) => Some (line (bs "SymData") (quote_path l)) +++ common_lines false d
         | _ => None
         end
       else if beq_bytes t (bs "dev") then
         match d KDevnums with
         | Some (VDev c a b) =>
             Some (line (bs "DeviceNum") (c ++ bs " " ++ dec_Z a ++ bs " " ++ dec_Z b))
             +++ common_lines false d
         | _ => None
         end
       else common_lines true d)
  | _ => None
  end.

(** reading a file of attributes *)
Definition attr_get (size : nat -> nat) (restrict : option idx) (content : bytes) : list rorp :=
  get_objects (bs "File ") attr_index attr_parse r_index size restrict content.
