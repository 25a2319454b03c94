(** * Messages and remote calls on a pipe connection

    Models src/rdiff_backup/connection.py: LowLevelPipeConnection (framing of
    messages), PipeConnection (requests and answers) and VirtualFile (numbering
    of files). *)
From Coq Require Import List NArith Bool Lia.
From Verif Require Import Base.
Import List ListNotations.
Local Open Scope N_scope.

(** ** Numbers, connection.py:333-341 *)

(** int.from_bytes(b, byteorder="big") *)
Definition b2i (s : bytes) : N := fold_left (fun a c => a * 256 + ord c) s 0.

(** i.to_bytes(size, "big") without the overflow check *)
Fixpoint be (size : nat) (i : N) : bytes :=
  match size with
  | O => []
  | S n => be n (i / 256) ++ [chr (i mod 256)]
  end.
(** to_bytes; [None]: OverflowError *)
Definition i2b_sized (size : nat) (i : N) : option bytes :=
  if i <? 256 ^ N.of_nat size then Some (be size i) else None.
(** _i2b(i) with size 0: (bit_length+7)//8 bytes *)
Definition i2b (i : N) : bytes := be (N.to_nat ((N.size i + 7) / 8)) i.

(** ** Framing *)
Record msg : Type := mk_msg { m_type : ascii; m_req : N; m_data : bytes }.

(** connection.py:310-324 _write; [None]: OverflowError *)
Definition write_msg (m : msg) : option bytes :=
  match i2b_sized 1 (m_req m), i2b_sized 7 (N.of_nat (length (m_data m))) with
  | Some r, Some l => Some ([m_type m] ++ r ++ l ++ m_data m)
  | _, _ => None
  end.

Inductive got (A : Type) : Type :=
| GMsg (x : A) (rest : bytes)
| GQuit (rest : bytes)       (* ConnectionQuit *)
| GTrunc                     (* ConnectionReadError: truncated header *)
| GBad.                      (* invalid format character, or unpickling fails *)
Arguments GMsg {A}.
Arguments GQuit {A}.
Arguments GTrunc {A}.
Arguments GBad {A}.

(** connection.py:343-369, first part of _get.  inpipe.read(n) returns n bytes, or
    what is left at the end of the input. *)
Definition read_msg (inp : bytes) : got msg :=
  let header := firstn 9 inp in
  if negb (Nat.eqb (length header) 9) then GTrunc
  else
    let rest := skipn 9 inp in
    match header with
    | ty :: rq :: len =>
        if Ascii.eqb ty "q" then GQuit rest
        else let n := N.to_nat (b2i len) in
             GMsg (mk_msg ty (b2i [rq]) (firstn n rest)) (skipn n rest)
    | _ => GTrunc
    end.

(** ** Objects, connection.py:233-304 _put... and 369-399 _get *)
Section Objects.
Context {Ob : Type}.
(** pickle.dumps and pickle.loads *)
Variable pickle : Ob -> bytes.
Variable unpickle : bytes -> option Ob.

(** What travels: a generic object, bytes, the number of a file or iterator
    (VirtualFile), a RORPath, an RPath (with the class letter), a connection
    number.  The tuples (conn_number, base, index, data) and (index, data) are
    objects for pickle. *)
Inductive rpkind := KRPath | KStored | KQuoted.
Inductive wobj : Type :=
| WObj (o : Ob)
| WBuf (b : bytes)
| WFile (id : N)
| WIter (id : N)
| WRor (o : Ob)
| WRp (k : rpkind) (o : Ob)
| WConn (n : N).

Definition rp_letter (k : rpkind) : ascii :=
  match k with KRPath => "R"%char | KStored => "S"%char | KQuoted => "Q"%char end.

Definition obj_msg (x : wobj) (req : N) : msg :=
  match x with
  | WObj o => mk_msg "o" req (pickle o)
  | WBuf b => mk_msg "b" req b
  | WFile id => mk_msg "f" req (i2b id)
  | WIter id => mk_msg "i" req (i2b id)
  | WRor o => mk_msg "r" req (pickle o)
  | WRp k o => mk_msg (rp_letter k) req (pickle o)
  | WConn n => mk_msg "c" req (i2b n)
  end.
Definition put (x : N * wobj) : option bytes := write_msg (obj_msg (snd x) (fst x)).

Definition msg_obj (m : msg) : option wobj :=
  let t := m_type m in let d := m_data m in
  if Ascii.eqb t "o" then option_map WObj (unpickle d)
  else if Ascii.eqb t "b" then Some (WBuf d)
  else if Ascii.eqb t "f" then Some (WFile (b2i d))
  else if Ascii.eqb t "i" then Some (WIter (b2i d))
  else if Ascii.eqb t "r" then option_map WRor (unpickle d)
  else if Ascii.eqb t "R" then option_map (WRp KRPath) (unpickle d)
  else if Ascii.eqb t "S" then option_map (WRp KStored) (unpickle d)
  else if Ascii.eqb t "Q" then option_map (WRp KQuoted) (unpickle d)
  else if Ascii.eqb t "c" then Some (WConn (b2i d))
  else None.
Definition get (inp : bytes) : got (N * wobj) :=
  match read_msg inp with
  | GMsg m rest => match msg_obj m with Some x => GMsg (m_req m, x) rest | None => GBad end
  | GQuit rest => GQuit rest
  | GTrunc => GTrunc
  | GBad => GBad
  end.

(** writing a sequence of objects, and reading [n] of them *)
Fixpoint put_all (l : list (N * wobj)) : option bytes :=
  match l with
  | [] => Some []
  | x :: l' => match put x, put_all l' with Some a, Some b => Some (a ++ b) | _, _ => None end
  end.
(** the objects read until the input ends or something is wrong, and why it stopped *)
Fixpoint get_n (n : nat) (inp : bytes) : list (N * wobj) * got (N * wobj) :=
  match n with
  | O => ([], get inp)
  | S n' =>
      match get inp with
      | GMsg x rest => let '(l, e) := get_n n' rest in (x :: l, e)
      | e => ([], e)
      end
  end.
End Objects.

(** ** Remote calls

    A computation on one side: it ends with a value (or exception), or calls a
    function on the other side.  [V]: values, including exceptions: reval raises
    the result if it is an exception (connection.py:478-491), which the
    continuation sees. *)
Section Calls.
Context {V : Type}.
Inductive prog : Type :=
| Ret (v : V)
| Call (f : list V -> prog) (args : list V) (k : V -> prog).

(** Messages as seen by the protocol: a ConnectionRequest with the number of its
    arguments, or another object. *)
Inductive pmsg : Type :=
| MReq (n : N) (f : list V -> prog) (nargs : nat)
| MVal (n : N) (v : V).
Definition num_of (m : pmsg) : N := match m with MReq n _ _ => n | MVal n _ => n end.

Inductive frame : Type :=
| FWait (n : N) (k : V -> prog)      (* in reval, waiting for the answer n *)
| FAnswer (n : N).                   (* in _answer_request *)

Inductive act : Type :=
| Run (p : prog)
| Listen                                        (* in _get_response *)
| Args (n : N) (f : list V -> prog) (missing : nat) (acc : list V)   (* in _answer_request *)
| Dead (why : string).                          (* uncaught exception *)

Record side : Type := mk_side { s_act : act; s_stk : list frame; s_unused : list N }.

(** One step of a side; [inp]: what it has not read yet.  Result: new side,
    remaining input, what it sends. [None]: nothing to do (blocked or finished).
    [pick]: which number set.pop() returns. *)
Definition rm (n : N) (l : list N) : list N := filter (fun x => negb (x =? n)) l.
Definition mem (n : N) (l : list N) : bool := existsb (N.eqb n) l.

Inductive side_step : side -> list pmsg -> side -> list pmsg -> list pmsg -> Prop :=
(** connection.py:465-477 reval and 593-598 _get_new_req_num *)
| S_call f args k st u inp n :
    In n u ->
    side_step (mk_side (Run (Call f args k)) st u) inp
      (mk_side Listen (FWait n k :: st) (rm n u)) inp
      (MReq n f (length args) :: map (MVal n) args)
| S_exhausted f args k st inp :
    side_step (mk_side (Run (Call f args k)) st []) inp
      (mk_side (Dead "Exhausted possible connection numbers") st []) inp []
(** 559-560: the result of the answered request is sent *)
| S_answered v n st u inp :
    side_step (mk_side (Run (Ret v)) (FAnswer n :: st) u) inp
      (mk_side Listen st (n :: u)) inp [MVal n v]
(** 524-541 _get_response: a message with the number waited for is the answer *)
| S_got n k st u m inp :
    num_of m = n ->
    side_step (mk_side Listen (FWait n k :: st) u) (m :: inp)
      (match m with
       | MVal _ v => mk_side (Run (k v)) st (n :: u)
       | MReq _ _ _ => mk_side (Dead "request taken for an answer") st (n :: u)
       end) inp []
(** otherwise it must be a request; the number must be unused (KeyError) *)
| S_request n f nargs st u inp :
    match st with FWait n' _ :: _ => n' <> n | _ => True end ->
    side_step (mk_side Listen st u) (MReq n f nargs :: inp)
      (if mem n u then mk_side (Args n f nargs []) st (rm n u) else mk_side (Dead "KeyError") st u) inp []
| S_not_request n v st u inp :
    match st with FWait n' _ :: _ => n' <> n | _ => True end ->
    side_step (mk_side Listen st u) (MVal n v :: inp)
      (mk_side (Dead "AssertionError: not a connection request") st u) inp []
(** 546-553 the arguments *)
| S_arg n f miss acc st u m inp :
    side_step (mk_side (Args n f (S miss) acc) st u) (m :: inp)
      (match m with
       | MVal n' v => if n' =? n then mk_side (Args n f miss (acc ++ [v])) st u
                      else mk_side (Dead "AssertionError: argument number") st u
       | MReq _ _ _ => mk_side (Dead "request taken for an argument") st u
       end) inp []
(** 554-558 (Security.vet_request, which may yield an exception instead, is the
    subject of M_Security) *)
| S_run n f acc st u inp :
    side_step (mk_side (Args n f 0 acc) st u) inp
      (mk_side (Run (f acc)) (FAnswer n :: st) u) inp [].

(** Both sides and the two directions of the pipe; any side that can go on may do
    so. *)
Record conf : Type := mk_conf { c_a : side; c_b : side; c_ab : list pmsg; c_ba : list pmsg }.
Inductive step : conf -> conf -> Prop :=
| St_a a b ab ba a' ba' out :
    side_step a ba a' ba' out -> step (mk_conf a b ab ba) (mk_conf a' b (ab ++ out) ba')
| St_b a b ab ba b' ab' out :
    side_step b ab b' ab' out -> step (mk_conf a b ab ba) (mk_conf a b' ab' (ba ++ out)).

(** PipeConnection.__init__: set(range(256)) (connection.py:433); 464 Server *)
Definition all_nums : list N := map N.of_nat (seq 0 256).
Definition start (p : prog) : conf :=
  mk_conf (mk_side (Run p) [] all_nums) (mk_side Listen [] all_nums) [] [].
End Calls.

(** ** Numbers of files, connection.py:669-723 VirtualFile *)
Section VFiles.
Context {F : Type}.
Record vfiles : Type := mk_vf { vf_counter : N; vf_tab : list (N * F) }.  (* counter: next number *)
Definition vf_init : vfiles := mk_vf 0 [].
Fixpoint vf_find (id : N) (l : list (N * F)) : option F :=
  match l with
  | [] => None
  | (i, f) :: l' => if i =? id then Some f else vf_find id l'
  end.
Definition vf_new (f : F) (s : vfiles) : vfiles * N :=
  (mk_vf (vf_counter s + 1) ((vf_counter s, f) :: vf_tab s), vf_counter s).
(** readfromid, writetoid: KeyError for an unknown number *)
Definition vf_get (id : N) (s : vfiles) : option F := vf_find id (vf_tab s).
(** the state of the file object changes by reading or writing *)
Definition vf_upd (id : N) (g : F -> F) (s : vfiles) : vfiles :=
  mk_vf (vf_counter s) (map (fun x => if fst x =? id then (fst x, g (snd x)) else x) (vf_tab s)).
Definition vf_close (id : N) (s : vfiles) : vfiles :=
  mk_vf (vf_counter s) (filter (fun x => negb (fst x =? id)) (vf_tab s)).
Inductive vfop := VNew (f : F) | VUse (id : N) (g : F -> F) | VClose (id : N).
Definition vf_step (s : vfiles) (o : vfop) : vfiles :=
  match o with
  | VNew f => fst (vf_new f s)
  | VUse id g => vf_upd id g s
  | VClose id => vf_close id s
  end.
End VFiles.
