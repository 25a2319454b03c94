(** Mapping of owners: /repo/src/rdiffbackup/utils/usrgrp.py, locations/map/owners.py,
    locations/location.py:194-206 and the part of meta/acl_posix.py which maps the named entries.

    Users only: the group functions are the same text with gid/gname, and they have their own
    dictionaries.  Names are ASCII byte strings.  Logging isn't modelled; FatalError is [None]. *)
From Coq Require Import List ZArith Bool Ascii Lia.
From Verif Require Import Base.
Import List ListNotations.
Local Open Scope Z_scope.

(** the system's user database, as getpwnam and getpwuid see it: in the order of /etc/passwd *)
Definition passwd := list (bytes * Z).
Definition getpwnam (pw : passwd) (n : bytes) : option Z :=
  option_map snd (find (fun e => beq_bytes (fst e) n) pw).
Definition getpwuid (pw : passwd) (u : Z) : option bytes :=
  option_map fst (find (fun e => snd e =? u) pw).

(** usrgrp.py:38-44 the two dictionaries (the newest binding first) *)
Record cache := mk_cache { id2name : list (Z * option bytes); name2id : list (bytes * option Z) }.
Definition no_cache := mk_cache [] [].
Definition look_id (c : cache) (u : Z) : option (option bytes) :=
  option_map snd (find (fun e => fst e =? u) (id2name c)).
Definition look_name (c : cache) (n : bytes) : option (option Z) :=
  option_map snd (find (fun e => beq_bytes (fst e) n) (name2id c)).
Definition set_id (u : Z) (v : option bytes) (c : cache) := mk_cache ((u, v) :: id2name c) (name2id c).
Definition set_name (n : bytes) (v : option Z) (c : cache) := mk_cache (id2name c) ((n, v) :: name2id c).

(** usrgrp.py:47-62 uid2uname (65-80 gid2gname) *)
Definition uid2uname (pw : passwd) (u : Z) (c : cache) : option bytes * cache :=
  match look_id c u with
  | Some r => (r, c)
  | None =>
      match getpwuid pw u with
      | Some n => (Some n, set_id u (Some n) (set_name n (Some u) c))
      | None => (None, set_id u None c)
      end
  end.

(** usrgrp.py:83-98 uname2uid (101-116 gname2gid) *)
Definition uname2uid (pw : passwd) (n : bytes) (c : cache) : option Z * cache :=
  match look_name c n with
  | Some r => (r, c)
  | None =>
      match getpwnam pw n with
      | Some u => (Some u, set_name n (Some u) (set_id u (Some n) c))
      | None => (None, set_name n None c)
      end
  end.

(** str.strip(): the ASCII characters which str.isspace() knows *)
Definition is_space (c : ascii) : bool :=
  let k := ord c in ((9 <=? k) && (k <=? 13) || (28 <=? k) && (k <=? 32))%N.
Fixpoint lstrip (s : bytes) : bytes :=
  match s with
  | c :: r => if is_space c then lstrip r else s
  | [] => []
  end.
Definition strip (s : bytes) : bytes := rev (lstrip (rev (lstrip s))).

(** int(): blanks around it, a sign, digits with single underscores between them *)
Fixpoint us_digits (s : bytes) : option bytes :=
  match s with
  | [] => None
  | c :: t =>
      if is_digit c then
        match t with
        | [] => Some [c]
        | d :: r =>
            if Ascii.eqb d (chr 95) then option_map (cons c) (us_digits r)
            else option_map (cons c) (us_digits t)
        end
      else None
  end.
Definition py_int (s : bytes) : option Z :=
  match strip s with
  | [] => None
  | c :: r =>
      if Ascii.eqb c (chr 45) then option_map (fun d => - Z.of_N (dval d)) (us_digits r)
      else if Ascii.eqb c (chr 43) then option_map (fun d => Z.of_N (dval d)) (us_digits r)
      else option_map (fun d => Z.of_N (dval d)) (us_digits (c :: r))
  end.

(** owners.py:65-101 _Map, 104-180 _DefinedMap, 183-192 _NumericalMap *)
Record dicts := mk_dicts { name_dict : list (bytes * option Z); id_dict : list (Z * option Z) }.
Inductive owner_map :=
| Default
| Defined (d : dicts)
| Numerical.

(** "if not name" *)
Definition given (name : option bytes) : option bytes :=
  match name with
  | Some [] => None
  | _ => name
  end.

(** owners.py:168-180 _DefinedMap._get_new_id; name2id returns None and raises no KeyError *)
Definition get_new_id (pw : passwd) (s : bytes) (c : cache) : option Z * cache :=
  match py_int s with
  | Some z => (Some z, c)
  | None => uname2uid pw s c
  end.

(** owners.py:124-140: one line of the mapping file *)
Definition add_line (pw : passwd) (line : bytes) (dc : dicts * cache) : option (dicts * cache) :=
  let '(d, c) := dc in
  match strip line with
  | [] => Some (d, c)
  | l =>
      match split_on (chr 58) l with
      | [old; new] =>
          let '(v, c1) := get_new_id pw new c in
          match py_int old with
          | Some z => Some (mk_dicts (name_dict d) ((z, v) :: id_dict d), c1)
          | None =>
              let '(v2, c2) := get_new_id pw new c1 in
              Some (mk_dicts ((old, v2) :: name_dict d) (id_dict d), c2)
          end
      | _ => None
      end
  end.
Fixpoint add_lines (pw : passwd) (ls : list bytes) (dc : dicts * cache) : option (dicts * cache) :=
  match ls with
  | [] => Some dc
  | l :: r =>
      match add_line pw l dc with
      | Some dc' => add_lines pw r dc'
      | None => None
      end
  end.

(** owners.py:112-140 _DefinedMap.__init__ (the file is read to a string by arguments.py:71-74) *)
Definition parse_mapping (pw : passwd) (text : bytes) (c : cache) : option (dicts * cache) :=
  add_lines pw (split_on nl text) (mk_dicts [] [], c).

(** owners.py:91-101, 153-166, 191-192 map_acl *)
Definition map_acl (m : owner_map) (pw : passwd) (id : Z) (name : option bytes) (c : cache)
  : option Z * cache :=
  match m with
  | Numerical => (Some id, c)
  | Default =>
      match given name with
      | None => (Some id, c)
      | Some n => uname2uid pw n c
      end
  | Defined d =>
      let by_id :=
        match find (fun e => fst e =? id) (id_dict d) with
        | Some e => snd e
        | None => None
        end in
      match given name with
      | None => (by_id, c)
      | Some n =>
          match find (fun e => beq_bytes (fst e) n) (name_dict d) with
          | Some e => (snd e, c)
          | None =>
              match uname2uid pw n c with
              | (Some z, c1) => (Some z, c1)
              | (None, c1) => (by_id, c1)
              end
          end
      end
  end.

(** owners.py:79-89, 143-151, 188-189 __call__ *)
Definition map_owner (m : owner_map) (pw : passwd) (id : Z) (name : option bytes) (c : cache)
  : Z * cache :=
  match m with
  | Numerical => (id, c)
  | Default =>
      match given name with
      | None => (id, c)
      | Some n =>
          match uname2uid pw n c with
          | (None, c1) => (id, c1)
          | (Some z, c1) => (z, c1)
          end
      end
  | Defined _ =>
      match map_acl m pw id name c with
      | (None, c1) => (id, c1)
      | (Some z, c1) => (z, c1)
      end
  end.

(** owners.py:195-208 init_users_mapping *)
Definition init_mapping (pw : passwd) (text : option bytes) (numerical : bool) (c : cache)
  : option (owner_map * cache) :=
  if numerical then Some (Numerical, c)
  else match text with
       | None | Some [] => Some (Default, c)
       | Some t => option_map (fun '(d, c1) => (Defined d, c1)) (parse_mapping pw t c)
       end.

(** the command line as far as it matters here.  argparse makes the key of an option by dropping the
    leading dashes and turning the others into underscores (actions/__init__.py:351-370) *)
Inductive value := VText (t : bytes) | VTrue | VFalse | VNone.
Definition values := list (bytes * value).
Definition dest_of (option : bytes) : bytes :=
  map (fun c => if Ascii.eqb c (chr 45) then chr 95 else c) (skipn 2 option).
Definition get (v : values) (k : bytes) : value :=
  match find (fun e => beq_bytes (fst e) k) v with
  | Some e => snd e
  | None => VNone
  end.
Definition command_line (user_file : option bytes) (numerical : bool) : values :=
  [(dest_of (bs "--preserve-numerical-ids"), if numerical then VTrue else VFalse);
   (dest_of (bs "--user-mapping-file"),
    match user_file with Some t => VText t | None => VNone end)].

(** locations/location.py:194-206 _init_owners_mapping *)
Definition init_owners_mapping (pw : passwd) (v : values) (c : cache) : option (owner_map * cache) :=
  init_mapping pw
    (match get v (bs "user_mapping_file") with VText t => Some t | _ => None end)
    (match get v (bs "preserve_num_ids") with VTrue => true | _ => false end) c.

(** meta/acl_posix.py:520-545 list_to_acl with map_names: what becomes of the named user entries
    (id, name, perms); an entry which isn't mapped is dropped *)
Definition acl_entry := (Z * option bytes * Z)%type.
Fixpoint map_entries (m : owner_map) (pw : passwd) (es : list acl_entry) (c : cache)
  : list (Z * Z) * cache :=
  match es with
  | [] => ([], c)
  | (id, name, perms) :: r =>
      let '(v, c1) := map_acl m pw id name c in
      let '(out, c2) := map_entries m pw r c1 in
      match v with
      | Some z => ((z, perms) :: out, c2)
      | None => (out, c2)
      end
  end.

(** whatever the process asks of the two modules in its life *)
Inductive request :=
| AskName (u : Z)
| AskId (n : bytes)
| AskOwner (id : Z) (name : option bytes)
| AskAcl (id : Z) (name : option bytes).
Inductive answer :=
| AName (n : option bytes)
| AId (u : option Z)
| AOwner (u : Z).
Definition serve (m : owner_map) (pw : passwd) (r : request) (c : cache) : answer * cache :=
  match r with
  | AskName u => let '(x, c') := uid2uname pw u c in (AName x, c')
  | AskId n => let '(x, c') := uname2uid pw n c in (AId x, c')
  | AskOwner i n => let '(x, c') := map_owner m pw i n c in (AOwner x, c')
  | AskAcl i n => let '(x, c') := map_acl m pw i n c in (AId x, c')
  end.
Fixpoint serve_all (m : owner_map) (pw : passwd) (rs : list request) (c : cache) : list answer * cache :=
  match rs with
  | [] => ([], c)
  | r :: rest =>
      let '(a, c1) := serve m pw r c in
      let '(l, c2) := serve_all m pw rest c1 in (a :: l, c2)
  end.
