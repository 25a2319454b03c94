(** * Extended attributes and access control lists in their metadata files

    Models src/cmodule.c: acl_quote, acl_unquote; src/rdiffbackup/meta/ea.py and
    src/rdiffbackup/meta/acl_posix.py: objects, records, files.  Reading attributes
    from and writing them to the file system is not modelled. *)
From Coq Require Import List ZArith Bool Ascii Lia.
From Verif Require Import Base M_Quoting M_Iter M_Rorp M_Meta.
Import List ListNotations.
Local Open Scope N_scope.

(** ** cmodule.c *)
(** cmodule.c:85-117 quote: what isn't printable, spaces, "\" and "=" become three octal digits.  Bytes
    from 128 on are not printable in the C locale nor in UTF-8 locales.  Strings
    with a NUL byte are refused by Python (no path or name has one). *)
Definition plain (c : ascii) : bool :=
  let n := ord c in (33 <=? n) && (n <=? 126) && negb (n =? 92) && negb (n =? 61).
Definition octal (c : ascii) : bytes :=
  let n := ord c in [bslash; chr (48 + n / 64); chr (48 + (n / 8) mod 8); chr (48 + n mod 8)].
Fixpoint acl_quote (s : bytes) : bytes :=
  match s with
  | [] => []
  | c :: r => (if plain c then [c] else octal c) ++ acl_quote r
  end.
(** 119-149 unquote; the value is stored in an unsigned char *)
Definition isoctal (c : ascii) : bool := (48 <=? ord c) && (ord c <=? 55).
Fixpoint acl_unquote (s : bytes) : bytes :=
  match s with
  | [] => []
  | c :: ((a :: b :: d :: r) as t) =>
      if Ascii.eqb c bslash && isoctal a && isoctal b && isoctal d
      then chr (((ord a - 48) * 64 + (ord b - 48) * 8 + (ord d - 48)) mod 256) :: acl_unquote r
      else c :: acl_unquote t
  | c :: t => c :: acl_unquote t
  end.

(** meta/__init__.py:133-138 _filename_to_index of FlatExtractor (used for EAs and ACLs) *)
Definition acl_index (q : bytes) : idx :=
  if beq_bytes q (bs ".") then [] else split_on (chr 47) (acl_unquote q).
(** ea.py:80-81, acl_posix.py:88-89 get_indexpath: [M_Meta.index_path] *)

(** ** base64 (Python's standard library, RFC 4648) *)
Definition b64_char (v : N) : ascii :=
  if v <? 26 then chr (65 + v) else if v <? 52 then chr (71 + v)
  else if v <? 62 then chr (v - 4) else if v =? 62 then chr 43 else chr 47.
Definition b64_val (c : ascii) : option N :=
  let n := ord c in
  if (65 <=? n) && (n <=? 90) then Some (n - 65)
  else if (97 <=? n) && (n <=? 122) then Some (n - 71)
  else if (48 <=? n) && (n <=? 57) then Some (n + 4)
  else if n =? 43 then Some 62 else if n =? 47 then Some 63 else None.
Definition pad : ascii := chr 61.
Fixpoint b64encode (s : bytes) : bytes :=
  match s with
  | a :: b :: c :: r =>
      [b64_char (ord a / 4); b64_char ((ord a mod 4) * 16 + ord b / 16);
       b64_char ((ord b mod 16) * 4 + ord c / 64); b64_char (ord c mod 64)] ++ b64encode r
  | [a; b] =>
      [b64_char (ord a / 4); b64_char ((ord a mod 4) * 16 + ord b / 16); b64_char ((ord b mod 16) * 4); pad]
  | [a] => [b64_char (ord a / 4); b64_char ((ord a mod 4) * 16); pad; pad]
  | [] => []
  end.
(** b64decode of a padded string without foreign characters; None: binascii.Error (a
    ValueError).  Python also skips foreign characters, which are never written. *)
Fixpoint b64decode (s : bytes) : option bytes :=
  match s with
  | [] => Some []
  | w :: x :: y :: z :: r =>
      match b64_val w, b64_val x with
      | Some w, Some x =>
          let b1 := chr (w * 4 + x / 16) in
          match b64_val y with
          | Some y =>
              let b2 := chr ((x mod 16) * 16 + y / 4) in
              match b64_val z with
              | Some z =>
                  match b64decode r with
                  | Some l => Some (b1 :: b2 :: chr ((y mod 4) * 64 + z) :: l)
                  | None => None
                  end
              | None => if Ascii.eqb z pad then match r with [] => Some [b1; b2] | _ => None end else None
              end
          | None => if Ascii.eqb y pad && Ascii.eqb z pad then match r with [] => Some [b1] | _ => None end else None
          end
      | _, _ => None
      end
  | _ => None
  end.

(** bytes.strip() and str.strip(): white space off both ends (ASCII only) *)
Definition is_space (c : ascii) : bool :=
  let n := ord c in ((9 <=? n) && (n <=? 13)) || (n =? 32).
Fixpoint lstrip (s : bytes) : bytes :=
  match s with c :: r => if is_space c then lstrip r else s | [] => [] end.
Definition strip (s : bytes) : bytes := rev (lstrip (rev (lstrip s))).

(** ** ea.py *)
(** an ExtendedAttributes object: index and attr_dict, in order of insertion *)
Record eas : Type := mk_eas { ea_index : idx; ea_dict : list (bytes * bytes) }.
(** set(name, value): a dictionary update *)
Fixpoint ea_set (d : list (bytes * bytes)) (n v : bytes) : list (bytes * bytes) :=
  match d with
  | [] => [(n, v)]
  | (m, w) :: r => if beq_bytes m n then (m, v) :: r else (m, w) :: ea_set r n v
  end.
(** 265-277 _object_to_record: an empty value leaves the bare, unquoted name *)
Definition ea_line (nv : bytes * bytes) : bytes :=
  match snd nv with
  | [] => fst nv
  | _ => acl_quote (fst nv) ++ bs "=0s" ++ b64encode (snd nv)
  end.
Definition FILE_HDR := bs "# file: ".
Definition ea_record (e : eas) : bytes :=
  join_with [nl] ((FILE_HDR ++ acl_quote (index_path (ea_index e))) :: map ea_line (ea_dict e)) ++ [nl].
(** 229-247: the lines of a record.  "line[0] == b'#'" compares an integer
    with bytes and is never true.  The name isn't unquoted. *)
Fixpoint ea_lines (ls : list bytes) (d : list (bytes * bytes)) : option (list (bytes * bytes)) :=
  match ls with
  | [] => Some d
  | l :: r =>
      let l := strip l in
      match l with
      | [] => ea_lines r d
      | _ =>
          match break_on (chr 61) l with
          | (n, None) => ea_lines r (ea_set d n [])
          | (n, Some v) =>
              if starts_with (bs "0s") v then
                match b64decode (skipn 2 v) with
                | Some w => ea_lines r (ea_set d n w)
                | None => None
                end
              else None
          end
      end
  end.
(** 212-248 _record_to_object *)
Definition ea_parse (rec : bytes) : option eas :=
  match split_on nl rec with
  | [] => None
  | first :: ls =>
      if starts_with FILE_HDR first then
        match ea_lines ls [] with
        | Some d => Some (mk_eas (acl_index (skipn 8 first)) d)
        | None => None
        end
      else None
  end.
Definition ea_get (size : nat -> nat) (restrict : option idx) (content : bytes) : list eas :=
  get_objects FILE_HDR acl_index ea_parse ea_index size restrict content.
(** 287-299 write_object: files without attributes aren't recorded *)
Definition ea_file (l : list eas) : bytes :=
  write_file (map ea_record (filter (fun e => match ea_dict e with [] => false | _ => true end) l)).

(** ** acl_posix.py *)
(** entry tuples (acl_posix.py:407-432): the tag, the owner (id or None, name or None) or None,
    permissions *)
Record entry : Type := mk_entry { e_tag : ascii; e_pair : option (option Z * option bytes); e_perms : N }.
Record acl : Type := mk_acl { a_index : idx; a_list : list entry; a_default : list entry }.
(** entry_list = None is like the empty list *)

(** 104-117 is_basic; None: AssertionError (or TypeError) *)
Definition is_basic (a : acl) : option bool :=
  match a_list a, a_default a with
  | [], [] => Some true
  | l, d => if Nat.ltb (length l) 3 then None
            else Some (Nat.eqb (length l) 3 && match d with [] => true | _ => false end)
  end.

(** 156-162 *)
Definition perm_text (p : N) : bytes :=
  [if N.testbit p 2 then chr 114 else chr 45; if N.testbit p 1 then chr 119 else chr 45;
   if N.testbit p 0 then chr 120 else chr 45].
(** "%s" % (name or id) *)
Definition owner_text (p : option (option Z * option bytes)) : option bytes :=
  match p with
  | Some (_, Some (c :: n)) => Some (c :: n)
  | Some (Some i, _) => Some (dec_Z i)
  | Some (None, _) => Some (bs "None")
  | None => None                                   (* TypeError *)
  end.
(** 147-175 _entrytuple_to_text *)
Definition entry_text (e : entry) : option bytes :=
  let t := ord (e_tag e) in
  match
    (if t =? 85 then Some (bs "user::")
     else if t =? 117 then option_map (fun o => bs "user:" ++ o ++ bs ":") (owner_text (e_pair e))
     else if t =? 71 then Some (bs "group::")
     else if t =? 103 then option_map (fun o => bs "group:" ++ o ++ bs ":") (owner_text (e_pair e))
     else if t =? 77 then Some (bs "mask::")
     else if t =? 79 then Some (bs "other::")
     else None)
  with
  | Some h => Some (h ++ perm_text (e_perms e))
  | None => None
  end.
Fixpoint all_some {A} (l : list (option A)) : option (list A) :=
  match l with
  | [] => Some []
  | Some x :: r => match all_some r with Some y => Some (x :: y) | None => None end
  | None :: _ => None
  end.
(** 68-80 __str__ *)
Definition acl_str (a : acl) : option bytes :=
  match a_list a with
  | [] => Some []
  | _ =>
      match all_some (map entry_text (a_list a)), all_some (map entry_text (a_default a)) with
      | Some l, Some d => Some (join_with [nl] (l ++ map (app (bs "default:")) d))
      | _, _ => None
      end
  end.
(** 302-308 _object_to_record *)
Definition acl_record (a : acl) : option bytes :=
  match acl_str a with
  | Some s => Some (FILE_HDR ++ acl_quote (index_path (a_index a)) ++ [nl] ++ s ++ [nl])
  | None => None
  end.

(** 203-211: "[r-][w-][x-]" *)
Definition perm_bit (c : ascii) (yes : N) : option N :=
  if ord c =? yes then Some 1 else if ord c =? 45 then Some 0 else None.
Definition parse_perms (s : bytes) : option N :=
  match s with
  | [r; w; x] =>
      match perm_bit r 114, perm_bit w 119, perm_bit x 120 with
      | Some r, Some w, Some x => Some (r * 4 + w * 2 + x)
      | _, _, _ => None
      end
  | _ => None
  end.
(** 177-226 _text_to_entrytuple.  Simplification: int() also takes "+1", "1_0"
    and foreign digits for numbers; see the hypotheses of the theorems. *)
Definition tag_pair (ty q : bytes) : option (ascii * option (option Z * option bytes)) :=
  match q with
  | _ :: _ =>
      let pr := match parse_Z q with Some z => (Some z, None) | None => (None, Some q) end in
      if beq_bytes ty (bs "user") then Some (chr 117, Some pr)
      else if beq_bytes ty (bs "group") then Some (chr 103, Some pr)
      else None
  | [] =>
      if beq_bytes ty (bs "user") then Some (chr 85, None)
      else if beq_bytes ty (bs "group") then Some (chr 71, None)
      else if beq_bytes ty (bs "mask") then Some (chr 77, None)
      else if beq_bytes ty (bs "other") then Some (chr 79, None)
      else None
  end.
Definition text_entry (s : bytes) : option entry :=
  match split_on (chr 58) s with
  | [ty; q; pt] =>
      match tag_pair ty q, parse_perms pt with
      | Some (t, pr), Some p => Some (mk_entry t pr p)
      | _, _ => None
      end
  | _ => None
  end.
(** 130-145 _set_from_text *)
Fixpoint acl_lines (ls : list bytes) (l d : list entry) : option (list entry * list entry) :=
  match ls with
  | [] => Some (l, d)
  | s :: r =>
      let s := strip (fst (break_on (chr 35) s)) in
      match s with
      | [] => acl_lines r l d
      | _ =>
          if starts_with (bs "default:") s then
            match text_entry (skipn 8 s) with Some e => acl_lines r l (d ++ [e]) | None => None end
          else
            match text_entry s with Some e => acl_lines r (l ++ [e]) d | None => None end
      end
  end.
(** 273-286 _record_to_object; AccessControlLists.__init__ (48-54) *)
Definition acl_parse (rec : bytes) : option acl :=
  match break_on nl rec with
  | (first, Some text) =>
      if starts_with FILE_HDR first then
        match acl_lines (split_on nl text) [] [] with
        | Some (l, d) => Some (mk_acl (acl_index (skipn 8 first)) l d)
        | None => None
        end
      else None
  | _ => None
  end.
Definition acl_get (size : nat -> nat) (restrict : option idx) (content : bytes) : list acl :=
  get_objects FILE_HDR acl_index acl_parse a_index size restrict content.

(** 319-331 write_object: basic ACLs aren't recorded; None: an exception *)
Fixpoint acl_records (l : list acl) : option (list bytes) :=
  match l with
  | [] => Some []
  | a :: r =>
      match is_basic a with
      | None => None
      | Some true => acl_records r
      | Some false =>
          match acl_record a, acl_records r with Some x, Some y => Some (x :: y) | _, _ => None end
      end
  end.
Definition acl_file (l : list acl) : option bytes := option_map write_file (acl_records l).

(** 228-253 _cmp_entry_list and 82-96 __eq__; None: the assertion of is_basic *)
Definition opt_eqb {A} (eqb : A -> A -> bool) (a b : option A) : bool :=
  match a, b with Some x, Some y => eqb x y | None, None => true | _, _ => false end.
Definition pair_eq (p q : option (option Z * option bytes)) : bool :=
  match p, q with
  | None, None => true
  | Some (i1, n1), Some (i2, n2) =>
      (opt_eqb Z.eqb i1 i2 && opt_eqb beq_bytes n1 n2) ||
      match n1, n2 with
      | Some (c :: n), n2 => opt_eqb beq_bytes (Some (c :: n)) n2
      | _, Some (c :: n) => false
      | _, _ => opt_eqb Z.eqb i1 i2
      end
  | _, _ => false
  end.
Fixpoint cmp_entries (l1 l2 : list entry) : bool :=
  match l1, l2 with
  | [], [] => true
  | a :: r1, b :: r2 =>
      Ascii.eqb (e_tag a) (e_tag b) && (e_perms a =? e_perms b) && pair_eq (e_pair a) (e_pair b)
      && cmp_entries r1 r2
  | _, _ => false
  end.
Definition acl_eq (a b : acl) : option bool :=
  match is_basic a with
  | Some true => is_basic b
  | Some false => Some (cmp_entries (a_list a) (a_list b) && cmp_entries (a_default a) (a_default b))
  | None => None
  end.

(** ** joining with the main metadata: ea.py:279-290, acl_posix.py:293-301 join_iter
    (rorpiter.CollateIterators, see M_Iter.collate2); None: AssertionError *)
Fixpoint join_meta {A B} (blank : idx -> B) (key : A -> idx) (l : list (option A * option B)) : option (list (A * B)) :=
  match l with
  | [] => Some []
  | (None, _) :: _ => None
  | (Some x, m) :: r =>
      match join_meta blank key r with
      | Some out => Some ((x, match m with Some m => m | None => blank (key x) end) :: out)
      | None => None
      end
  end.
