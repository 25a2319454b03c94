(* M_IncName.v -- names of increment files.
   /repo/src/rdiffbackup/locations/increment.py and the grouping of a listing of
   an increment directory in _repo_shadow.py. *)
From Verif Require Import Base M_Time.

Definition dot : ascii := chr 46.

(* the increment types: increment.py:203 *)
Definition inc_types : list bytes :=
  [bs "snapshot"; bs "dir"; bs "missing"; bs "diff"; bs "data"].

(* addtostr in get_increment: increment.py:165-166.  [label] is
   Time.timetostring(inc_time); typestr may carry the suffix ".gz"
   (increment.py:227,253). *)
Definition increment_name (base label typestr : bytes) : bytes :=
  join_with [dot] [base; label; typestr].
Definition typestr (ty : bytes) (gz : bool) : bytes :=
  if gz then ty ++ bs ".gz" else ty.

(* Time.bytestotime: Time.py:124-128; names with bytes >= 128 are not ASCII *)
Definition bytestotime (s : bytes) : option Z :=
  if forallb (fun c => (ord c <? 128)%N) s then stringtotime s else None.

(* _parse_increment_name: increment.py:187-212.  Result (compressed, timestr,
   time, type, basestr).  The list is reversed to express dotsplit[-1] etc. *)
Definition parse_increment_name (name : bytes)
  : option (bool * bytes * Z * bytes * bytes) :=
  let dotsplit := split_on dot name in
  let finish compressed timestring ext rbase :=
    if existsb (beq_bytes ext) inc_types then
      match bytestotime timestring with
      | Some t => Some (compressed, timestring, t, ext, join_with [dot] (rev rbase))
      | None => None
      end
    else None in
  match rev dotsplit with
  | g :: r =>
      if beq_bytes g (bs "gz") then
        if (List.length dotsplit <? 4)%nat then None
        else match r with
             | ext :: timestring :: rbase => finish true timestring ext rbase
             | _ => None
             end
      else
        if (List.length dotsplit <? 3)%nat then None
        else match r with
             | timestring :: rbase => finish false timestring g rbase
             | _ => None
             end
  | [] => None
  end.

(* StoredRPath.get_incfiles_list: increment.py:32-55, on the list of names of
   the parent directory: the increments of [base] within [begin, end]. *)
Definition incfiles_list (base : bytes) (begin end_ : option Z) (names : list bytes)
  : list (bytes * Z) :=
  flat_map (fun n =>
    if starts_with base n then
      match parse_increment_name n with
      | Some (_, _, t, _, b) =>
          if beq_bytes b base
             && match begin with None => true | Some x => (x <=? t)%Z end
             && match end_ with None => true | Some x => (t <=? x)%Z end
          then [(n, t)] else []
      | None => []
      end
    else []) names.

(* get_inc_pairs/add_to_dict in _RestoreFile.yield_inc_complexes:
   _repo_shadow.py:3085-3102: which base name an entry of the increments
   directory is filed under (second component: it is an increment of it).  The
   entry is given with a flag telling whether it is a directory. *)
Definition inc_entry (name : bytes) (isdir : bool) : option (bytes * bool) :=
  match parse_increment_name name with
  | Some (_, _, _, ty, b) =>
      if beq_bytes ty (bs "data")
      then (if isdir then Some (name, false) else None)
      else Some (b, true)
  | None => if isdir then Some (name, false) else None
  end.
