(** * The file-like wrappers of librsync (src/rdiff_backup/librsync.py: LikeFile)

    [job] is the state of the C object (signature, delta or patch maker);
    [cycle] is its cycle method: end flag, number of input bytes used and output,
    or [None] for librsyncError.  The input file is the list of what its read
    method returns until the empty string. *)
From Coq Require Import List ZArith Bool Ascii.
From Verif Require Import Base.
Import List ListNotations.

Section LF.
Variable job : Type.
Variable cycle : job -> bytes -> option (bool * nat * bytes * job).
Variable blocksize : nat.

Record like : Type := mk_like {
  k_in : list bytes;           (* what is still to be read from infile *)
  k_inbuf : bytes;
  k_outbuf : bytes;
  k_eof : bool;
  k_infile_eof : bool;
  k_job : job }.
Definition like_open (chunks : list bytes) (j : job) : like := mk_like chunks [] [] false false j.

(** 110-120 _add_to_inbuf *)
Fixpoint fill (chunks : list bytes) (inbuf : bytes) : list bytes * bytes * bool :=
  if Nat.ltb (length inbuf) blocksize then
    match chunks with
    | [] => ([], inbuf, true)
    | b :: r => match b with [] => (r, inbuf, true) | _ => fill r (inbuf ++ b) end
    end
  else (chunks, inbuf, false).

Definition filled (l : like) : like :=
  if k_infile_eof l then l
  else let '(c, b, e) := fill (k_in l) (k_inbuf l) in mk_like c b (k_outbuf l) (k_eof l) e (k_job l).

(** 98-108 _add_to_outbuf_once *)
Definition add_once (l : like) : option like :=
  let l1 := filled l in
  match cycle (k_job l1) (k_inbuf l1) with
  | None => None
  | Some (eof, used, out, j) =>
      Some (mk_like (k_in l1) (skipn used (k_inbuf l1)) (k_outbuf l1 ++ out) eof (k_infile_eof l1) j)
  end.

(** 67-80 read: the loop and the split of the buffer.  A round which gives no output
    is repeated; [fuel] bounds the rounds, running out of it is [RStuck]. *)
Inductive rres : Type := RData (b : bytes) (l : like) | RError | RStuck.
Definition enough (len : option nat) (l : like) : bool :=
  k_eof l || match len with None => false | Some n => Nat.leb n (length (k_outbuf l)) end.
Fixpoint gather (fuel : nat) (len : option nat) (l : like) : option (option like) :=
  if enough len l then Some (Some l)
  else match fuel with
       | O => None
       | S f => match add_once l with None => Some None | Some l' => gather f len l' end
       end.
Definition take (len : option nat) (l : like) : bytes * like :=
  let n := match len with None => length (k_outbuf l) | Some n => Nat.min n (length (k_outbuf l)) end in
  (firstn n (k_outbuf l),
   mk_like (k_in l) (k_inbuf l) (skipn n (k_outbuf l)) (k_eof l) (k_infile_eof l) (k_job l)).
(** [len = None] is read(-1) *)
Definition like_read (fuel : nat) (len : option nat) (l : like) : rres :=
  match gather fuel len l with
  | None => RStuck
  | Some None => RError
  | Some (Some l') => let '(b, l2) := take len l' in RData b l2
  end.
(** several reads *)
Fixpoint like_reads (fuel : nat) (lens : list (option nat)) (l : like) : option (list bytes * like) :=
  match lens with
  | [] => Some ([], l)
  | n :: r =>
      match like_read fuel n l with
      | RData b l' => option_map (fun '(bs, l2) => (b :: bs, l2)) (like_reads fuel r l')
      | _ => None
      end
  end.
End LF.
Arguments mk_like {job}. Arguments k_in {job}. Arguments k_inbuf {job}. Arguments k_outbuf {job}.
Arguments k_eof {job}. Arguments k_infile_eof {job}. Arguments k_job {job}.
