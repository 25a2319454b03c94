(** * Specification for C21: a reader of items and their files, without any
    connection, buffer or block. *)
From Coq Require Import List NArith Bool.
From Verif Require Import Base M_Conn M_IterFile.
Import List ListNotations.

Section Spec.
Context {Ob R E C : Type}.
Notation item := (@item Ob R E C).
Notation fend := (@fend E C).
Notation obs := (@obs Ob R E C).

(** The file of the last item: what is left of its content and how it ends; *)
Inductive afile : Type :=
| ANone
| AOpen (rest : bytes) (e : fend)
| AErrFile (e : E)          (* couldn't be read at all: every read raises the error *)
| AFailed                   (* an error was raised by a read *)
| AClosed (c : C).

Definition open_file (f : @sfile E C) : afile :=
  match concat (f_blocks f), f_end f with
  | [], FErr e => AErrFile e
  | content, e => AOpen content e
  end.

Fixpoint next_item (it : list item) : list item * afile * obs :=
  match it with
  | [] => ([], ANone, ObStop)
  | IFlush :: it' => next_item it'
  | IFlushRepeat :: it' => (it', ANone, ObFlushRepeat)
  | IObj o :: it' => (it', ANone, ObObj o)
  | IRorp r None :: it' => (it', ANone, ObRorp r false)
  | IRorp r (Some f) :: it' => (it', open_file f, ObRorp r true)
  end.

(** [None]: nothing is claimed.  This concerns a file which wasn't read to its end
    before going on or closing it, and a file after it raised an error. *)
Definition spec_step (st : list item * afile) (o : rop) : option (obs * (list item * afile)) :=
  let '(it, f) := st in
  match o with
  | Next =>
      match f with
      | AOpen (_ :: _) _ => None
      | _ => let '(it', f', x) := next_item it in
             Some (x, (it', match x with ObStop => f | _ => f' end))
      end
  | Read len =>
      match f with
      | ANone => Some (ObNoFile, st)
      | AErrFile e => Some (ObRaise (XExc e), st)
      | AFailed => None
      | AClosed _ => Some (ObRaise (XPy "AssertionError"), st)
      | AOpen rest e =>
          let whole := match len with Some n => Nat.leb (length rest) n | None => true end in
          if whole then
            match e with
            | FEof _ => Some (ObData rest, (it, AOpen [] e))
            | FErr x => Some (ObRaise (XExc x), (it, AFailed))
            end
          else match len with
               | Some n => Some (ObData (firstn n rest), (it, AOpen (skipn n rest) e))
               | None => None
               end
      end
  | Close =>
      match f with
      | ANone => Some (ObNoFile, st)
      | AErrFile _ => Some (ObClosed None, st)
      | AFailed => None
      | AClosed c => Some (ObClosed (Some c), st)
      | AOpen [] (FEof c) => Some (ObClosed (Some c), (it, AClosed c))
      | AOpen _ _ => None
      end
  end.

Fixpoint spec_run (st : list item * afile) (ops : list rop) : option (list obs) :=
  match ops with
  | [] => Some []
  | o :: ops' =>
      match spec_step st o with
      | None => None
      | Some (x, st') => match spec_run st' ops' with Some l => Some (x :: l) | None => None end
      end
  end.

(** What can be sent: the blocks read are not empty; sizes fit in seven bytes. *)
Definition fits (d : bytes) : Prop := (N.of_nat (length d) < 256 ^ 7)%N.
Definition good_file (pickle : pobj -> bytes) (f : @sfile E C) : Prop :=
  (forall b, In b (f_blocks f) -> b <> [] /\ fits b) /\
  match f_end f with FEof c => fits (pickle (@PClose Ob R E C c)) | FErr e => fits (pickle (PExc e)) end.
Definition good_item (pickle : pobj -> bytes) (i : item) : Prop :=
  match i with
  | IObj o => fits (pickle (PObj o))
  | IFlush => True
  | IFlushRepeat => fits (pickle PFlushRepeat)
  | IRorp r f => fits (pickle (PRorp r (match f with Some _ => true | None => false end))) /\
                 match f with Some f => good_file pickle f | None => True end
  end.
End Spec.
