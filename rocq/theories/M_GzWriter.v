(** * The files of the data directory: written under a name fixed late.

    /repo/src/rdiff_backup/rpath.py:1359-1418 MaybeGzip,
    /repo/src/rdiffbackup/meta/__init__.py:219-300 FlatFile (opening, writing, closing),
    /repo/src/rdiffbackup/meta_mgr.py:117-148 recreate_attr, 191-207 _writer_helper.

    Simplified: a directory gives for a path (its components) what lies there; a file
    compressed by gzip is what was compressed, and whether it was closed (the trailer is
    written then); what was written has reached the file (no buffer of Python or of the
    system); an object is the record made of it; the FatalError of a name which is no
    increment (234-238) is the answer [None], as is an assertion. *)
From Coq Require Import List Bool Ascii Arith.
From Verif Require Import Base M_Meta.
Import List ListNotations.

Definition path := list bytes.
Definition path_dec : forall p q : path, {p = q} + {p <> q} := list_eq_dec (list_eq_dec ascii_dec).

(** a file: gzip or not, the data, closed or not *)
Record file : Type := mk_file { f_gz : bool; f_data : bytes; f_done : bool }.
Definition dir := path -> option file.
Definition put (d : dir) (p : path) (f : file) : dir := fun q => if path_dec q p then Some f else d q.

(** an RPath: its base and its index *)
Record rp : Type := mk_rp { r_base : path; r_index : path }.
Definition path_of (r : rp) : path := r_base r ++ r_index r.

(** rpath.py:1411-1417 _get_gzipped_rp; without index append_path puts ".gz" below *)
Definition gzipped (r : rp) : rp :=
  match r_index r with
  | [] => mk_rp (r_base r ++ [bs ".gz"]) []
  | ix => mk_rp (r_base r) (removelast ix ++ [last ix [] ++ bs ".gz"])
  end.

(** isinccompressed: the name of an increment ends with ".gz"
    (increment.py:55-82) *)
Definition gz_name (p : path) : bool := starts_with (rev (bs ".gz")) (rev (last p [])).

(** meta/__init__.py:219-262: the state of a writer.  [w_open]: the file which is open
    (and whether it is compressed), [w_rp] self.rp, [w_calls] the calls of the callback *)
Record writer : Type := mk_writer {
  w_maybe : option rp;          (* MaybeGzip of this base *)
  w_open : option rp;
  w_rp : option rp;
  w_buffer : list bytes;
  w_calls : list rp }.

(** rpath.py:1090-1103 open "wb": the file is created or emptied *)
Definition open_wb (d : dir) (r : rp) (gz : bool) : dir := put d (path_of r) (mk_file gz [] false).
Definition append (d : dir) (r : rp) (b : bytes) : dir :=
  match d (path_of r) with
  | Some f => put d (path_of r) (mk_file (f_gz f) (f_data f ++ b) (f_done f))
  | None => d
  end.
Definition finish (d : dir) (r : rp) : dir :=
  match d (path_of r) with
  | Some f => put d (path_of r) (mk_file (f_gz f) (f_data f) true)
  | None => d
  end.
Definition exists_ (d : dir) (r : rp) : bool := match d (path_of r) with Some _ => true | None => false end.

(** meta/__init__.py:233-262: opened for writing.  [named]: the name is the one of an
    increment with the prefix of the class (234-238) *)
Definition open_writer (d : dir) (r : rp) (check_path compress named : bool) : option (dir * writer) :=
  if check_path && negb named then None
  else if compress && check_path && negb (gz_name (path_of r)) then
    if exists_ d r then None                                   (* rpath.py:1371 *)
    else Some (d, mk_writer (Some r) None None [] [])
  else if exists_ d r then None                                (* 253-255 *)
  else Some (open_wb d r compress, mk_writer None (Some r) (Some r) [] []).

(** rpath.py:1385-1398 MaybeGzip.write, or the write of the open file *)
Definition write (d : dir) (w : writer) (buf : bytes) : dir * writer :=
  match w_open w, w_maybe w with
  | Some r, _ => (append d r buf, w)
  | None, Some base =>
      match buf with
      | [] => (d, w)
      | _ => let r := gzipped base in
             (append (open_wb d r true) r buf,
              mk_writer (w_maybe w) (Some r) (Some r) (w_buffer w) (w_calls w))
      end
  | None, None => (d, w)
  end.
Definition set_buffer (w : writer) (b : list bytes) : writer :=
  mk_writer (w_maybe w) (w_open w) (w_rp w) b (w_calls w).

(** meta/__init__.py:264-266 write_object, 288-297 _write_record *)
Definition write_record (d : dir) (w : writer) (record : bytes) : dir * writer :=
  let buffer := w_buffer w ++ [record] in
  if (MAX_BUFFER <=? List.length buffer)%nat then
    let (d, w) := write d w (concat buffer) in (d, set_buffer w [])
  else (d, set_buffer w buffer).
Fixpoint write_records (d : dir) (w : writer) (records : list bytes) : dir * writer :=
  match records with
  | [] => (d, w)
  | r :: l => let (d, w) := write_record d w r in write_records d w l
  end.

(** meta/__init__.py:274-286 close, rpath.py:1400-1409 MaybeGzip.close; the closed
    writer is its [w_rp] and [w_calls].  [None]: no self.rp *)
Definition close (d : dir) (w : writer) : option (dir * rp * list rp) :=
  let (d, w) := match w_buffer w with
                | [] => (d, w)
                | b => let (d, w) := write d w (concat b) in (d, set_buffer w [])
                end in
  let '(d, rp) := match w_open w, w_maybe w with
                  | Some r, _ => (finish d r, w_rp w)
                  | None, Some base => (finish (open_wb d base false) base, Some base)
                  | None, None => (d, w_rp w)
                  end in
  match rp with
  | Some r => Some (d, r, w_calls w ++ [r])
  | None => None
  end.

(** a whole writing: opened, the records, closed *)
Definition write_all (d : dir) (r : rp) (check_path compress named : bool) (records : list bytes) :
  option (dir * rp * list rp) :=
  match open_writer d r check_path compress named with
  | Some (d, w) => let (d, w) := write_records d w records in close d w
  | None => None
  end.

(** interrupted after the records: the directory left *)
Definition interrupted (d : dir) (r : rp) (check_path compress named : bool) (records : list bytes) : option dir :=
  match open_writer d r check_path compress named with
  | Some (d, w) => Some (fst (write_records d w records))
  | None => None
  end.

(** meta/__init__.py:239-246: opened for reading, uncompressed after its name; a file of
    no bytes is read as such.  [None]: no file, or an error of gzip, or not the data *)
Definition read (d : dir) (p : path) : option bytes :=
  match d p with
  | None => None
  | Some f =>
      if gz_name p then
        if f_gz f then if f_done f then Some (f_data f) else None
        else match f_data f with [] => Some [] | _ => None end
      else if f_gz f then None else Some (f_data f)
  end.

(** meta_mgr.py:117-148 recreate_attr: through the temporary file [tmp], renamed *)
Definition recreate (d : dir) (tmp final : rp) (compress : bool) (records : list bytes) : option dir :=
  match write_all d tmp false compress false records with
  | Some (d, r, _) =>
      if exists_ d final then None
      else match d (path_of r) with
           | Some f => Some (fun q => if path_dec q (path_of r) then None else put d (path_of final) f q)
           | None => None
           end
  | None => None
  end.
