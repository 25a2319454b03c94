(** * The action test: servers tried one after the other.

    /repo/src/rdiffbackup/actions/test.py:51-92,
    /repo/src/rdiffbackup/actions/__init__.py:573-655 (connect, check, is_connection_ok),
    /repo/src/rdiffbackup/run.py:76-135 (the steps),
    /repo/src/rdiff_backup/SetConnections.py:106-118 get_connected_rpath, 147-174
    test_connections, 517-553 _test_connection.

    Simplified: a location is what parse_location says of it and how its server behaves;
    connecting and the answers of one server don't depend on the others; the checks of
    the options common to all actions are the argument [pre]; setup answers OK
    (__init__.py:620-641); extended attributes aren't active, so the third argument of
    get_rpath_data isn't looked at. *)
From Coq Require Import List Bool Ascii Arith NArith.
From Verif Require Import Base.
Import List ListNotations.

(** consts.py:30-33 *)
Definition OK : N := 0.
Definition ERR : N := 1.
Definition WARN : N := 2.
Definition FILE_ERR : N := 4.
Definition is_err (c : N) : bool := negb (N.land c ERR =? 0)%N.

(** what the server answers to the type of a path: an exception, something which is no
    dictionary or has no type, a type *)
Inductive answer : Type := AExc | ANoType | AType (t : option bytes).
Record server : Type := mk_server {
  s_connects : bool;              (* _init_connection returns a connection *)
  s_echo : option bytes;          (* the test variable read back, [None]: exception *)
  s_data : answer }.
(** parse_location: an error, no host, a host and its server *)
Inductive location : Type := LError | LLocal | LRemote (s : server).

(** test.py:51-67: all the locations are looked at *)
Fixpoint locations_code (l : list location) : N :=
  match l with
  | [] => OK
  | LRemote _ :: r => locations_code r
  | _ :: r => N.lor ERR (locations_code r)
  end.

(** SetConnections.py:106-118: the connections made, None those failing;
    the local "connection" of a local path isn't one of specifics.connections *)
Definition connect1 (x : nat * location) : option (nat * location) :=
  match snd x with
  | LRemote s => if s_connects s then Some x else None
  | _ => Some x
  end.
(** list(filter(None, ...)) test.py:75 *)
Fixpoint somes {A} (l : list (option A)) : list A :=
  match l with [] => [] | Some x :: r => x :: somes r | None :: r => somes r end.
(** __init__.py:597-604: the status of the connections *)
Definition conn_status (l : list (option (nat * location))) : N :=
  if existsb (fun x => match x with None => true | Some _ => false end) l then ERR else OK.

(** test.py:69-84 check *)
Definition check (status : N) (connected : list (nat * location)) : N :=
  if is_err status then match connected with [] => status | _ => WARN end else status.

Definition VALUE : bytes := bs "xyz123".
(** SetConnections.py:517-553 _test_connection *)
Definition test_connection (s : server) : bool :=
  match s_echo s with
  | None => false
  | Some v => if negb (beq_bytes VALUE v) then false
              else match s_data s with
                   | AType (Some t) => beq_bytes t (bs "dir")
                   | _ => false
                   end
  end.

(** all(map(...)), 170-174: the answer, and the servers tried *)
Fixpoint all_tests (l : list (nat * server)) : bool * list nat :=
  match l with
  | [] => (true, [])
  | (i, s) :: r => if test_connection s then let (b, t) := all_tests r in (b, i :: t) else (false, [i])
  end.
(** the remote connections of specifics.connections: those made *)
Definition remotes (l : list (nat * location)) : list (nat * server) :=
  somes (map (fun x => match snd x with LRemote s => Some (fst x, s) | _ => None end) l).
(** SetConnections.py:147-174 test_connections: the i-th path belongs to the i-th connection *)
Definition test_connections (connected : list (nat * location)) : N * list nat :=
  let conns := remotes connected in
  let conn_len := S (List.length conns) in
  if (conn_len =? 1)%nat then (FILE_ERR, [])
  else if negb (conn_len =? List.length connected + 1)%nat then (FILE_ERR, [])
  else let (b, t) := all_tests conns in ((if b then OK else ERR), t).

(** run.py:76-135: the code, the locations connected and those tested *)
Definition test_action (pre : N) (locs : list location) : N * list nat * list nat :=
  let ret_val := N.lor pre (locations_code locs) in
  if is_err ret_val then (ret_val, [], [])
  else
    let conns := map connect1 (combine (seq 0 (List.length locs)) locs) in
    let made := map fst (remotes (somes conns)) in
    let status := conn_status conns in
    if is_err status then (status, made, [])                   (* run.py:90-97 *)
    else
      let connected := somes conns in
      let ret_val := N.lor ret_val (check status connected) in
      if is_err ret_val then (ret_val, made, [])
      else let (c, t) := test_connections connected in (N.lor ret_val c, made, t).
