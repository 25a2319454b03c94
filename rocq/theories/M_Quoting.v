(* M_Quoting.v -- model of the two file-name quoting layers. *)
From Verif Require Import Base.

(* ---- utils/quoting.py ------------------------------------------------- *)

(* quote_path: /repo/src/rdiffbackup/utils/quoting.py:30-48.  re.sub with the
   pattern \n|\\ is a single left-to-right pass over single bytes. *)
Fixpoint quote_path (s : bytes) : bytes :=
  match s with
  | [] => []
  | c :: r =>
      if Ascii.eqb c nl then bslash :: chr 110 :: quote_path r
      else if Ascii.eqb c bslash then bslash :: bslash :: quote_path r
      else c :: quote_path r
  end.

(* unquote_path: /repo/src/rdiffbackup/utils/quoting.py:51-67.  re.sub with the
   pattern \\n|\\\\ : leftmost, non overlapping matches; a backslash followed
   by anything else is left alone. *)
Fixpoint unquote_path (s : bytes) : bytes :=
  match s with
  | [] => []
  | c :: r =>
      if Ascii.eqb c bslash then
        match r with
        | d :: r' =>
            if Ascii.eqb d (chr 110) then nl :: unquote_path r'
            else if Ascii.eqb d bslash then bslash :: unquote_path r'
            else c :: unquote_path r
        | [] => [c]
        end
      else c :: unquote_path r
  end.

(* ---- locations/map/filenames.py --------------------------------------- *)

(* consts.QUOTING_CHAR: /repo/src/rdiffbackup/singletons/consts.py *)
Definition QUOTING_CHAR : ascii := chr 59.

(* _quote_single and the inline b"%b%03d" % (QUOTING_CHAR, byte):
   /repo/src/rdiffbackup/locations/map/filenames.py:187-191,136-139,150 *)
Definition quote_single (c : ascii) : bytes := QUOTING_CHAR :: dec_pad 3 (ord c).

(* chars_to_quote_regexp.sub(_quote_single, path), the regexp being
   [<chars_to_quote>]|; : filenames.py:127,163-184.  The character class is
   modelled by a predicate on bytes. *)
Fixpoint quote_class (cls : ascii -> bool) (s : bytes) : bytes :=
  match s with
  | [] => []
  | c :: r =>
      if cls c || Ascii.eqb c QUOTING_CHAR then quote_single c ++ quote_class cls r
      else c :: quote_class cls r
  end.

(* trailing space / period escaping: filenames.py:131-140 *)
Definition escape_trailing (q : bytes) : bytes :=
  match rev q with
  | [] => q
  | c :: r =>
      if Ascii.eqb c (chr 32) || Ascii.eqb c (chr 46)
      then rev r ++ quote_single c
      else q
  end.

(* ASCII lower case, for re.I *)
Definition lower (c : ascii) : ascii :=
  if ((65 <=? ord c) && (ord c <=? 90))%N then chr (ord c + 32) else c.

(* "(\.|$)" after the device name; `$` also matches before one final newline *)
Definition dos_end (r : bytes) : bool :=
  match r with
  | [] => true
  | c :: r' =>
      Ascii.eqb c (chr 46) || (Ascii.eqb c nl && match r' with [] => true | _ => false end)
  end.

(* re.match("(aux|prn|con|nul|com[0-9]|lpt[1-9])(\.|$)", q, re.I):
   filenames.py:146-149 *)
Definition dos_device (q : bytes) : bool :=
  match q with
  | a :: b :: c :: r =>
      let w := map lower [a; b; c] in
      ((beq_bytes w (bs "aux") || beq_bytes w (bs "prn") || beq_bytes w (bs "con")
        || beq_bytes w (bs "nul")) && dos_end r)
      || match r with
         | d :: r' =>
             ((beq_bytes w (bs "com") && is_digit d)
              || (beq_bytes w (bs "lpt") && is_digit d && negb (Ascii.eqb d (chr 48))))
             && dos_end r'
         | [] => false
         end
  | _ => false
  end.

(* quote: /repo/src/rdiffbackup/locations/map/filenames.py:118-151.  [edd] is
   generics.escape_dos_devices, [ets] generics.escape_trailing_spaces. *)
Definition fs_quote (cls : ascii -> bool) (edd ets : bool) (path : bytes) : bytes :=
  let q := quote_class cls path in
  if negb edd && negb ets then q
  else
    let q := if ets then escape_trailing q else q in
    if ets && negb edd then q
    else if negb (dos_device q) then q
    else match q with
         | c :: r => quote_single c ++ r
         | [] => q       (* cannot happen: [] is not a device name *)
         end.

(* os.fsencode(chr(n)) for n <= 999 with the UTF-8 file system encoding:
   filenames.py:204-205 *)
Definition fsencode_chr (n : N) : bytes :=
  if (n <? 128)%N then [chr n]
  else [chr (192 + n / 64); chr (128 + n mod 64)].

(* unquote: filenames.py:154-158,194-210; regexp ;[0-9]{3} *)
Fixpoint fs_unquote (s : bytes) : bytes :=
  match s with
  | [] => []
  | c :: r =>
      if Ascii.eqb c QUOTING_CHAR then
        match r with
        | d1 :: d2 :: d3 :: r' =>
            if is_digit d1 && is_digit d2 && is_digit d3
            then fsencode_chr (dval [d1; d2; d3]) ++ fs_unquote r'
            else c :: fs_unquote r
        | _ => c :: fs_unquote r
        end
      else c :: fs_unquote r
  end.

(* The character class computed from the file systems' abilities:
   /repo/src/rdiffbackup/locations/fs_abilities.py:985-1006.  Arguments: source
   case sensitive, destination case sensitive, destination extended_filenames
   (None = unknown), destination win_reserved_filenames.  Result None = nothing
   to quote (empty chars_to_quote). *)
Definition in_range (lo hi : N) (c : ascii) : bool :=
  ((lo <=? ord c) && (ord c <=? hi))%N.
Definition ctq_from_fsas (src_cs dest_cs : bool) (dest_ext : option bool)
           (dest_win : bool) : option (ascii -> bool) :=
  let l :=
    (if src_cs && negb dest_cs then [in_range 65 90] else [])
    ++ (match dest_ext with
        | Some false => [in_range 0 31; in_range 128 255]
        | _ => []
        end)
    ++ (if dest_win then
          (match dest_ext with Some true => [in_range 0 31] | _ => [] end)
          ++ [fun c => mem_byte c
                (chr 34 :: chr 42 :: chr 47 :: chr 58 :: chr 60 :: chr 62
                 :: chr 63 :: chr 92 :: chr 124 :: [chr 127])]
        else []) in
  match l with
  | [] => None
  | _ => Some (fun c => existsb (fun p => p c) l || Ascii.eqb c QUOTING_CHAR)
  end.

(* _compare_ctq_file: fs_abilities.py:1008-1068.  Returns the quoting to use
   and the value stored in the repository afterwards; None = FatalError. *)
Definition compare_ctq (previous enforced : option bytes) (suggested : bytes)
  : option (bytes * bytes) :=
  match previous with
  | None =>
      let actual := match enforced with None => suggested | Some e => e end in
      Some (actual, actual)
  | Some prev =>
      let actual :=
        match enforced with
        | None => if negb (beq_bytes suggested []) && negb (beq_bytes suggested prev)
                  then suggested else prev
        | Some e => e
        end in
      if beq_bytes actual prev then Some (actual, prev) else None
  end.

(* A repository's life: successive sessions, each with the quoting enforced by
   the user (if any) and the one suggested by the file systems; yields the
   quoting used in each session (None = session refused).  The stored value is
   the file chars_to_quote, written by set_config only when it was absent. *)
Fixpoint ctq_run (stored : option bytes) (l : list (option bytes * bytes))
  : list (option bytes) :=
  match l with
  | [] => []
  | (enf, sug) :: r =>
      match compare_ctq stored enf sug with
      | Some (actual, st) => Some actual :: ctq_run (Some st) r
      | None => None :: ctq_run stored r
      end
  end.
