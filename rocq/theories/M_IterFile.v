(** * Streams of objects and files over a connection

    Models src/rdiff_backup/iterfile.py: MiscIterToFile (sender) and FileToMiscIter
    with IterVirtualFile and ErrorFile (receiver).  FileWrappingIter and
    IterWrappingFile are only used as their base classes; the methods overridden
    by the Misc classes (read, _add_to_buffer, _get, __next__) are not modelled in
    their base version. *)
From Coq Require Import List NArith Bool Lia.
From Verif Require Import Base M_Conn.
Import List ListNotations.

Section IterFile.
(** objects, RORPath data, exceptions, close values *)
Context {Ob R E C : Type}.

(** what is pickled: an object, the class MiscIterFlushRepeat, a tuple (index,
    data, has a file), an exception, the value returned by close() *)
Inductive pobj : Type :=
| PObj (o : Ob) | PFlushRepeat | PRorp (r : R) (has_file : bool) | PExc (e : E) | PClose (c : C).
Variable pickle : pobj -> bytes.
Variable unpickle : bytes -> option pobj.

(** A file read by the sender: the successive non-empty results of
    read(BLOCKSIZE), then the end or an error caught by robust.check_common_error
    (other errors end the process). *)
Inductive fend := FEof (c : C) | FErr (e : E).
Record sfile : Type := mk_sf { f_blocks : list bytes; f_end : fend }.
(** What the iterator yields.  Simplification: no bare file objects, which no
    iterator of the program yields. *)
Inductive item : Type :=
| IObj (o : Ob) | IFlush | IFlushRepeat | IRorp (r : R) (f : option sfile).

(** ** Sender *)
Record sender : Type := mk_snd {
  s_iter : list item;
  s_buf : bytes;
  s_cur : option sfile;          (* currently_in_file *)
  s_next : option sfile;         (* next_in_line *)
  s_rps : nat;                   (* rorps_in_buffer *)
  s_maxb : N; s_maxr : nat }.    (* limits of the buffer *)

(** iterfile.py:334-345 __init__ *)
Definition new_sender (it : list item) (maxb : N) (maxr : nat) : sender :=
  mk_snd it [] None None 0 maxb maxr.

(** type letter, seven bytes of length, data (245-247, 273, 284, 421-442).  More than
    2^56 bytes raise OverflowError in Python, see the theorems' hypotheses. *)
Definition frame_of (ty : ascii) (d : bytes) : bytes :=
  [ty] ++ be 7 (N.of_nat (length d)) ++ d.

(** 257-280 _add_from_file: bytes added, and the rest of the file if not at its end *)
Definition add_from_file (letter : ascii) (f : sfile) : bytes * option sfile :=
  match f_blocks f with
  | b :: bl =>
      if Nat.eqb (length b) 0 then (frame_of letter b, None)   (* excluded by the hypotheses *)
      else (frame_of letter b, Some (mk_sf bl (f_end f)))
  | [] =>
      match f_end f with
      | FErr e => (frame_of "e" (pickle (PExc e)), None)
      | FEof c => (frame_of letter [] ++ frame_of "h" (pickle (PClose c)), None)
      end
  end.

(** 376-405 _add_to_buffer; the boolean is the result *)
Definition add_to_buffer (s : sender) : sender * bool :=
  let add it b cur nxt rps := mk_snd it (s_buf s ++ b) cur nxt rps (s_maxb s) (s_maxr s) in
  match s_cur s with
  | Some f =>
      let '(b, cur) := add_from_file "c" f in
      (add (s_iter s) b cur (s_next s) (match cur with None => S (s_rps s) | _ => s_rps s end), true)
  | None =>
      match s_next s with
      | Some f =>
          let '(b, cur) := add_from_file "f" f in
          (add (s_iter s) b cur None (s_rps s), true)
      | None =>
          match s_iter s with
          | [] => (add [] (frame_of "z" []) None None (s_rps s), false)
          | IFlush :: it => (add it [] None None (s_rps s), false)
          | IFlushRepeat :: it => (add it (frame_of "o" (pickle PFlushRepeat)) None None (s_rps s), false)
          | IRorp r (Some f) :: it => (add it (frame_of "r" (pickle (PRorp r true))) None (Some f) (s_rps s), true)
          | IRorp r None :: it => (add it (frame_of "r" (pickle (PRorp r false))) None None (S (s_rps s)), true)
          | IObj o :: it => (add it (frame_of "o" (pickle (PObj o))) None None (s_rps s), true)
          end
      end
  end.

(** how many times _add_to_buffer can be called before the end *)
Definition file_work (f : option sfile) : nat :=
  match f with Some f => S (length (f_blocks f)) | None => 0 end.
Definition item_work (i : item) : nat := match i with IRorp _ f => S (file_work f) | _ => 1 end.
Definition work (s : sender) : nat :=
  file_work (s_cur s) + file_work (s_next s) + fold_right (fun i n => item_work i + n)%nat 0%nat (s_iter s).

(** 347-371 read() without a length.  The loop ends since the iterator ends;
    [fuel] is shown to be enough.  (read(length) is never used.) *)
Fixpoint read_loop (fuel : nat) (s : sender) : sender :=
  match fuel with
  | O => s
  | S fuel' =>
      if (N.of_nat (length (s_buf s)) <? s_maxb s)%N && Nat.ltb (s_rps s) (s_maxr s) then
        let '(s', go) := add_to_buffer s in
        if go then read_loop fuel' s' else s'
      else s
  end.
Definition sread (s : sender) : bytes * sender :=
  let s' := read_loop (S (work s)) s in
  (s_buf s', mk_snd (s_iter s') [] (s_cur s') (s_next s') 0 (s_maxb s') (s_maxr s')).

(** ** Receiver *)

(** IterVirtualFile.buffer is a bytes object, or the str "" once close() is at work *)
Inductive vbuf := BB (b : bytes) | BStr.
Inductive vfile : Type :=
| VErr (e : E)                                                  (* ErrorFile *)
| VFile (buf : vbuf) (closed : bool) (cv : option C).           (* IterVirtualFile *)

(** The receiver, the file it returned last, and the sender it reads from *)
Record recv : Type := mk_rcv {
  r_src : sender;
  r_buf : bytes;
  r_in : bool;                  (* currently_in_file, which is the last file *)
  r_file : option vfile }.

Definition new_recv (s : sender) : recv := mk_rcv s [] false None.

Inductive exc := XExc (e : E) | XPy (name : string).   (* a passed-on error, or one of Python's *)

(** 486-509 _get *)
Inductive gres := GNone | GObj (ty : ascii) (p : pobj) | GRaw (ty : ascii) (d : bytes) | GExc (x : exc).
Definition rget (r : recv) : gres * recv :=
  let '(buf, src) := match r_buf r with
                     | [] => sread (r_src r)
                     | _ => (r_buf r, r_src r)
                     end in
  match buf with
  | [] => (GNone, mk_rcv src [] (r_in r) (r_file r))
  | ty :: rest =>
      if Nat.ltb (length buf) 8 then (GExc (XPy "AssertionError"), mk_rcv src buf (r_in r) (r_file r))
      else
        let n := N.to_nat (b2i (firstn 7 rest)) in
        let data := firstn n (skipn 7 rest) in
        let r' := mk_rcv src (skipn n (skipn 7 rest)) (r_in r) (r_file r) in
        if mem_byte ty (bs "oerh") then
          match unpickle data with
          | Some p => (GObj ty p, r')
          | None => (GExc (XPy "UnpicklingError"), r')
          end
        else (GRaw ty data, r')
  end.

Definition set_in (b : bool) (r : recv) : recv := mk_rcv (r_src r) (r_buf r) b (r_file r).
Definition set_file (f : option vfile) (r : recv) : recv := mk_rcv (r_src r) (r_buf r) (r_in r) f.

(** 182-195 _set_close_val of the current file with buffer [b] *)
Definition set_close_val (b : vbuf) (closed : bool) (r : recv) : option exc * recv :=
  match rget (set_in false r) with
  | (GObj ty (PClose c), r') =>
      if Ascii.eqb ty "h" then (None, set_file (Some (VFile b closed (Some c))) r')
      else (Some (XPy "ValueError"), r')
  | (GExc x, r') => (Some x, r')
  | (_, r') => (Some (XPy "ValueError"), r')
  end.

(** 161-180 _add_to_buffer of the current file, whose buffer is [b]:
    an exception, or whether something was added *)
Definition vadd (b : vbuf) (closed : bool) (r : recv) : (exc + bool) * recv :=
  match rget r with
  | (GExc x, r') => (inl x, r')
  | (GObj ty (PExc e), r') =>
      if Ascii.eqb ty "e" then (inl (XExc e), set_in false r') else (inl (XPy "ValueError"), r')
  | (GRaw ty d, r') =>
      if Ascii.eqb ty "c" then
        match d with
        | [] => match set_close_val b closed r' with
                | (Some x, r2) => (inl x, r2)
                | (None, r2) => (inr false, r2)
                end
        | _ :: _ =>
            match b with
            | BB b0 => (inr true, set_file (Some (VFile (BB (b0 ++ d)) closed None)) r')
            | BStr => (inl (XPy "TypeError"), r')     (* "" += bytes *)
            end
        end
      else (inl (XPy "ValueError"), r')
  | (_, r') => (inl (XPy "ValueError"), r')
  end.

Definition rfuel (r : recv) : nat := S (S (length (r_buf r) + 2 * work (r_src r))).

(** 132-151 read; [None]: length -1.  The loop of adding to the buffer: *)
Definition more (len : option nat) (b : bytes) : bool :=
  match len with Some n => Nat.leb (length b) n | None => true end.
Fixpoint fill (fuel : nat) (len : option nat) (r : recv) : option exc * recv :=
  match fuel with
  | O => (Some (XPy "out of fuel"), r)
  | S fuel' =>
      match r_file r with
      | Some (VFile (BB b) closed _) =>
          if more len b then
            match vadd (BB b) closed r with
            | (inl x, r') => (Some x, r')
            | (inr true, r') => fill fuel' len r'
            | (inr false, r') => (None, r')
            end
          else (None, r)
      | _ => (None, r)
      end
  end.

Inductive obs : Type :=
| ObObj (o : Ob) | ObFlushRepeat | ObRorp (r : R) (has_file : bool) | ObStop
| ObData (d : bytes) | ObClosed (c : option C)
| ObRaise (x : exc) | ObNoFile.

Definition vread (len : option nat) (r : recv) : obs * recv :=
  match r_file r with
  | None => (ObNoFile, r)
  | Some (VErr e) => (ObRaise (XExc e), r)                           (* 518-526 *)
  | Some (VFile b closed cv) =>
      if closed then (ObRaise (XPy "AssertionError"), r)
      else
        let '(x, r1) := if r_in r then fill (rfuel r) len r else (None, r) in
        match x with
        | Some x => (ObRaise x, r1)
        | None =>
            match r_file r1 with
            | Some (VFile (BB b1) _ cv1) =>
                (* real_len; a negative one only if the file was over already: then
                   buffer[:-1] is returned and buffer[-1:] kept *)
                let real_len :=
                  match len with
                  | Some n => Nat.min n (length b1)
                  | None => if r_in r then length b1 else length b1 - 1
                  end in
                (ObData (firstn real_len b1),
                 set_file (Some (VFile (BB (skipn real_len b1)) false cv1)) r1)
            | _ => (ObRaise (XPy "TypeError"), r1)
            end
        end
  end.

(** 153-159 close: an exception or nothing; the buffer becomes "" after the first round *)
Fixpoint drain (fuel : nat) (r : recv) : option exc * recv :=
  match fuel with
  | O => (Some (XPy "out of fuel"), r)
  | S fuel' =>
      if r_in r then
        match r_file r with
        | Some (VFile b closed _) =>
            match vadd b closed r with
            | (inl x, r') => (Some x, r')
            | (inr _, r') =>
                match r_file r' with
                | Some (VFile _ closed' cv') => drain fuel' (set_file (Some (VFile BStr closed' cv')) r')
                | _ => (None, r')
                end
            end
        | _ => (None, r)
        end
      else (None, r)
  end.
(** only called while in the file, or by the user *)
Definition vclose (r : recv) : obs * recv :=
  match r_file r with
  | None => (ObNoFile, r)
  | Some (VErr e) => (ObClosed None, r)
  | Some (VFile _ _ _) =>
      match drain (rfuel r) r with
      | (Some x, r') => (ObRaise x, r')
      | (None, r') =>
          match r_file r' with
          | Some (VFile b _ (Some c)) => (ObClosed (Some c), set_file (Some (VFile b true (Some c))) r')
          | Some (VFile b _ None) => (ObRaise (XPy "AttributeError"), set_file (Some (VFile b true None)) r')
          | _ => (ObRaise (XPy "AttributeError"), r')
          end
      end
  end.

(** 460-470: until something comes *)
Fixpoint get_some (fuel : nat) (r : recv) : gres * recv :=
  match fuel with
  | O => (GExc (XPy "out of fuel"), r)
  | S fuel' => match rget r with
               | (GNone, r') => get_some fuel' r'
               | x => x
               end
  end.

(** 452-488 __next__, _get_rorp, _get_file *)
Definition rnext (r : recv) : obs * recv :=
  let '(x, r0) :=
    if r_in r then match vclose r with (ObRaise x, r') => (Some x, r') | (_, r') => (None, r') end
    else (None, r) in
  match x with
  | Some x => (ObRaise x, r0)
  | None =>
      match get_some (rfuel r0) r0 with
      | (GExc x, r1) => (ObRaise x, r1)
      | (GRaw ty _, r1) => if Ascii.eqb ty "z" then (ObStop, r1) else (ObRaise (XPy "IterFileException"), r1)
      | (GObj ty p, r1) =>
          if Ascii.eqb ty "r" then
            match p with
            | PRorp rp false => (ObRorp rp false, set_file None r1)
            | PRorp rp true =>
                match rget r1 with
                | (GRaw ty2 d, r2) =>
                    if Ascii.eqb ty2 "f" then
                      (* 113-135 IterVirtualFile.__init__ *)
                      let r3 := set_in true (set_file (Some (VFile (BB d) false None)) r2) in
                      match d with
                      | [] => match set_close_val (BB []) false r3 with
                              | (Some x, r4) => (ObRaise x, r4)
                              | (None, r4) => (ObRorp rp true, r4)
                              end
                      | _ => (ObRorp rp true, r3)
                      end
                    else (ObRaise (XPy "ValueError"), r2)
                | (GObj ty2 (PExc e), r2) =>
                    if Ascii.eqb ty2 "e" then (ObRorp rp true, set_file (Some (VErr e)) r2)
                    else (ObRaise (XPy "ValueError"), r2)
                | (GExc x, r2) => (ObRaise x, r2)
                | (_, r2) => (ObRaise (XPy "ValueError"), r2)
                end
            | _ => (ObRaise (XPy "ValueError"), r1)
            end
          else if Ascii.eqb ty "o" then
            match p with
            | PObj o => (ObObj o, set_file None r1)
            | PFlushRepeat => (ObFlushRepeat, set_file None r1)
            | _ => (ObRaise (XPy "other object"), r1)
            end
          else (ObRaise (XPy "IterFileException"), r1)
      | (GNone, r1) => (ObRaise (XPy "unreachable"), r1)
      end
  end.

Inductive rop := Next | Read (len : option nat) | Close.
Definition rstep (r : recv) (o : rop) : obs * recv :=
  match o with Next => rnext r | Read len => vread len r | Close => vclose r end.
Fixpoint rrun (r : recv) (ops : list rop) : list obs :=
  match ops with
  | [] => []
  | o :: ops' => let '(x, r') := rstep r o in x :: rrun r' ops'
  end.
End IterFile.
