(** * Copying and comparing the content of files (src/rdiff_backup/rpath.py, hash.py) *)
From Coq Require Import List ZArith Bool Ascii.
From Verif Require Import Base.
Import List ListNotations.

(** A file opened for writing: its content and the position in it. *)
Record ofile : Type := mk_ofile { o_data : bytes; o_pos : Z }.
Definition new_ofile : ofile := mk_ofile [] 0%Z.     (* open(.., "wb") *)

Definition zero : ascii := chr 0.
Definition zeros (n : nat) : bytes := repeat zero n.

(** write(2) at the position: a gap left by seeking reads as zeros *)
Definition write_at (f : bytes) (pos : nat) (b : bytes) : bytes :=
  firstn pos f ++ zeros (pos - length f) ++ b ++ skipn (pos + length b) f.
Definition o_write (f : ofile) (b : bytes) : ofile :=
  mk_ofile (write_at (o_data f) (Z.to_nat (o_pos f)) b) (o_pos f + Z.of_nat (length b)).
(** seek(n, SEEK_CUR); [None]: OSError, the position would be negative *)
Definition o_seek (f : ofile) (n : Z) : option ofile :=
  if (o_pos f + n <? 0)%Z then None else Some (mk_ofile (o_data f) (o_pos f + n)%Z).

Definition is_zeros (b : bytes) : bool := beq_bytes b (zeros (length b)).

(** 1450-1464: the loop; the input is the list of what the calls of read return until
    the empty one. [compressed]: the output is a GzipFile *)
Fixpoint copy_loop (compressed : bool) (chunks : list bytes) (sparse : bool) (f : ofile) : option (bool * ofile) :=
  match chunks with
  | [] => Some (sparse, f)
  | b :: r =>
      if negb compressed && is_zeros b then
        match o_seek f (Z.of_nat (length b)) with
        | Some f' => copy_loop compressed r true f'
        | None => None
        end
      else copy_loop compressed r false (o_write f b)
  end.
(** 1441-1468 copyfileobj *)
Definition copyfileobj (compressed : bool) (chunks : list bytes) (f : ofile) : option ofile :=
  match copy_loop compressed chunks false f with
  | None => None
  | Some (sparse, f') =>
      if sparse then
        match o_seek f' (-1) with
        | Some f2 => Some (o_write f2 [zero])
        | None => None
        end
      else Some f'
  end.

(** A file object read through: the reads return the pieces of [chunks] in turn; after
    the last one, b"".  Reading with a length never returns more than it. *)

(** hash.py:24-45 FileWrapper: every piece read is passed to sha1.update; the digest is
    the one of everything passed *)
Record hashed : Type := mk_hashed { h_rest : list bytes; h_seen : bytes }.
Definition hash_open (chunks : list bytes) : hashed := mk_hashed chunks [].
Definition hash_read (h : hashed) : bytes * hashed :=
  match h_rest h with
  | [] => ([], mk_hashed [] (h_seen h ++ []))
  | b :: r => (b, mk_hashed r (h_seen h ++ b))
  end.
Section Hash.
Variable sha1 : bytes -> bytes.
Definition hash_close (h : hashed) : bytes := sha1 (h_seen h).
(** copyfileobj reading from a FileWrapper: returns also what close reports
    (write_from_fileobj 1105-1119) *)
Fixpoint read_all (n : nat) (h : hashed) : list bytes * hashed :=
  match n with
  | O => ([], h)
  | S n' =>
      let '(b, h') := hash_read h in
      match b with
      | [] => ([], h')
      | _ => let '(l, h2) := read_all n' h' in (b :: l, h2)
      end
  end.
Definition write_from_fileobj (compressed : bool) (chunks : list bytes) : option (bytes * bytes) :=
  let '(l, h) := read_all (S (length chunks)) (hash_open chunks) in
  match copyfileobj compressed l new_ofile with
  | Some f => Some (o_data f, hash_close h)
  | None => None
  end.
(** hash.py:82-87 compute_sha1_fp *)
Definition compute_sha1_fp (chunks : list bytes) : bytes :=
  hash_close (snd (read_all (S (length chunks)) (hash_open chunks))).
End Hash.

(** 1883-1891 _cmp_file_obj; [n]: number of rounds, [None]: not finished *)
Fixpoint cmp_file_obj (n : nat) (c1 c2 : list bytes) : option bool :=
  match n with
  | O => None
  | S n' =>
      let b1 := hd [] c1 in
      let b2 := hd [] c2 in
      if negb (beq_bytes b1 b2) then Some false
      else match b1 with [] => Some true | _ => cmp_file_obj n' (tl c1) (tl c2) end
  end.
(** reading a regular file by blocks of [k] bytes *)
Fixpoint blocks (fuel k : nat) (s : bytes) : list bytes :=
  match fuel, s with
  | S f, _ :: _ => firstn k s :: blocks f k (skipn k s)
  | _, _ => []
  end.
