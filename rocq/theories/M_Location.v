(** * Locations and how they're reached

    Models src/rdiff_backup/SetConnections.py:177-270 parse_location, 273-311 _fill_schema, 93-101
    (desc2cmd_pairs in get_cmd_pairs), 426-494 (the agreement on an API version in
    _validate_connection_version) and src/rdiffbackup/singletons/specifics.py:118-141 set_api_version.

    Simplifications: os.fsencode/os.fsdecode are each other's inverse, so everything is bytes; of
    Python's str.format, a field with braces in it isn't modelled (an error here); what it does with
    a field other than h, Vx, Vy, Vz is a parameter. *)
From Coq Require Import List ZArith Bool Ascii.
From Verif Require Import Base.
Import List ListNotations.
Local Open Scope Z_scope.

Definition colon : ascii := chr 58.
Definition slash : ascii := chr 47.
Definition obrace : ascii := chr 123.
Definition cbrace : ascii := chr 125.

(** ** parse_location *)
(** 190-193: re.split with the expression (?<!\\)(\\{2})*:: , groups which are None left out.  [acc] is the
    part so far, without the run of [run] backslashes just before; a double colon is a separator after an even number of
    backslashes, and then the group is the last pair of them. *)
Fixpoint re_split (acc : bytes) (run : nat) (s : bytes) : list bytes :=
  match s with
  | [] => [acc ++ repeat bslash run]
  | c :: s1 =>
      if Ascii.eqb c bslash then re_split acc (S run) s1
      else
        match s1 with
        | d :: s2 =>
            if Ascii.eqb c colon && Ascii.eqb d colon && Nat.even run then
              acc :: (match run with O => [] | _ => [[bslash; bslash]] end) ++ re_split [] 0 s2
            else re_split (acc ++ repeat bslash run ++ [c]) 0 s1
        | [] => re_split (acc ++ repeat bslash run ++ [c]) 0 s1
        end
  end.

(** 201: the expression ^(\\{2})+$ , where $ also is before a newline at the end *)
Fixpoint only_pairs (s : bytes) : bool :=
  match s with
  | c :: d :: s' =>
      Ascii.eqb c bslash && Ascii.eqb d bslash
      && match s' with [] => true | [e] => Ascii.eqb e nl | _ => only_pairs s' end
  | _ => false
  end.

(** 198-208: stitch the parts together, from the end *)
Definition stitch (parts : list bytes) : list bytes :=
  snd (fold_right (fun part '(keep, acc) =>
    if only_pairs part then (Some part, acc)
    else (None, (match keep with Some k => part ++ k | None => part end) :: acc)) (None, []) parts).

(** x.split(b"\\\\") for the double backslash *)
Fixpoint split_pairs (acc : bytes) (s : bytes) : list bytes :=
  match s with
  | [] => [acc]
  | c :: s1 =>
      match s1 with
      | d :: s2 =>
          if Ascii.eqb c bslash && Ascii.eqb d bslash then acc :: split_pairs [] s2
          else split_pairs (acc ++ [c]) s1
      | [] => split_pairs (acc ++ [c]) s1
      end
  end.
(** x.replace(sbs + b":", b":") *)
Fixpoint replace_colons (s : bytes) : bytes :=
  match s with
  | [] => []
  | c :: s1 =>
      match s1 with
      | d :: s2 =>
          if Ascii.eqb c bslash && Ascii.eqb d colon then colon :: replace_colons s2
          else c :: replace_colons s1
      | [] => [c]
      end
  end.
(** 250-255, 263 *)
Definition unquote_part (s : bytes) : bytes := join_with [bslash] (map replace_colons (split_pairs [] s)).

(** 257: starts with two backslashes and something else than a third *)
Definition is_unc_path (s : bytes) : bool :=
  match s with
  | c :: d :: e :: _ => Ascii.eqb c bslash && Ascii.eqb d bslash && negb (Ascii.eqb e bslash)
  | _ => false
  end.
(** 263-268 *)
Definition to_path (s : bytes) : bytes :=
  let p := map (fun c => if Ascii.eqb c bslash then slash else c) (unquote_part s) in
  if is_unc_path s then slash :: p else p.

Inductive location : Type :=
| Local (path : bytes)
| Remote (host path : bytes)
| TooMany | NoLocation | NoHost | NoPath.

(** 177-270 *)
Definition parse_location (desc : bytes) : location :=
  match stitch (re_split [] 0 desc) with
  | [] => NoLocation
  | [p] => Local (to_path p)
  | [h; p] =>
      match h, p with
      | [], _ => NoHost
      | _, [] => NoPath
      | _, _ => Remote (unquote_part h) (to_path p)
      end
  | _ => TooMany
  end.

(** ** _fill_schema *)
(** 293: re.findall(b"(?<!{){[^{}]*}", cmd_schema), without the braces; [prev]: the byte before is an opening brace,
    [st]: what follows an opening brace before which is none *)
Fixpoint find_fields (prev : bool) (st : option bytes) (s : bytes) : list bytes :=
  match s with
  | [] => []
  | c :: s' =>
      if Ascii.eqb c obrace then find_fields true (if prev then None else Some []) s'
      else if Ascii.eqb c cbrace then
        match st with Some f => [f] | None => [] end ++ find_fields false None s'
      else find_fields false (match st with Some f => Some (f ++ [c]) | None => None end) s'
  end.

(** 294: re.findall(b"{h}|{V[xyz]}", cmd_schema), without the braces *)
Definition known_fields : list bytes := [bs "h"; bs "Vx"; bs "Vy"; bs "Vz"].
Definition field_here (s : bytes) : list bytes :=
  filter (fun f => starts_with (obrace :: f ++ [cbrace]) s) known_fields.
Fixpoint find_known (s : bytes) : list bytes :=
  match s with
  | [] => []
  | c :: s' => field_here s ++ find_known s'
  end.

Fixpoint eqb_list (l m : list bytes) : bool :=
  match l, m with
  | [], [] => true
  | x :: l', y :: m' => beq_bytes x y && eqb_list l' m'
  | _, _ => false
  end.

Inductive filled : Type :=
| Filled (cmd : bytes)
| FatalSchema          (* Invalid remote schema *)
| FormatError.         (* an exception which isn't caught *)

Section Format.
Variable host : bytes.
Variables Vx Vy Vz : bytes.
(** any other replacement field; [None]: KeyError *)
Variable other : bytes -> option bytes.

Definition field (f : bytes) : option bytes :=
  if beq_bytes f (bs "h") then Some host
  else if beq_bytes f (bs "Vx") then Some Vx
  else if beq_bytes f (bs "Vy") then Some Vy
  else if beq_bytes f (bs "Vz") then Some Vz
  else other f.

Definition literally (c : ascii) (r : filled) : filled :=
  match r with Filled x => Filled (c :: x) | _ => r end.
(** str.format; [st]: within a replacement field *)
Fixpoint format (st : option bytes) (s : bytes) : filled :=
  match st with
  | None =>
      match s with
      | [] => Filled []
      | c :: s1 =>
          if Ascii.eqb c obrace || Ascii.eqb c cbrace then
            match s1 with
            | [] => FormatError
            | d :: s2 =>
                if Ascii.eqb c d then literally c (format None s2)
                else if Ascii.eqb c cbrace then FormatError
                else format (Some []) s1
            end
          else literally c (format None s1)
      end
  | Some f =>
      match s with
      | [] => FormatError
      | c :: s1 =>
          if Ascii.eqb c cbrace then
            match field f with
            | None => FatalSchema
            | Some v => match format None s1 with Filled x => Filled (v ++ x) | r => r end
            end
          else if Ascii.eqb c obrace then FormatError
          else format (Some (f ++ [c])) s1
      end
  end.

(** 273-311 *)
Definition fill_schema (schema : bytes) : filled :=
  if eqb_list (find_fields false None schema) (find_known schema)
     && existsb (beq_bytes (bs "h")) (find_known schema)
  then format None schema
  else FatalSchema.
End Format.

(** 93-101 desc2cmd_pairs: what is executed, and the path there; [None]: an error is reported *)
Definition cmd_pair (schema Vx Vy Vz : bytes) (other : bytes -> bytes -> option bytes) (l : location)
  : option (option bytes * bytes) :=
  match l with
  | Local p => Some (None, p)
  | Remote h p =>
      match fill_schema h Vx Vy Vz (other h) schema with
      | Filled cmd => Some (Some cmd, p)
      | _ => None
      end
  | _ => None
  end.

(** ** The API version *)
Record api : Type := mk_api { v_default : Z; v_min : Z; v_max : Z; v_actual : Z }.   (* actual 0: not set *)

(** specifics.py:118-135; [None]: ValueError *)
Definition set_api_version (v : Z) (a : api) : option api :=
  if (v <? v_min a) || (v_max a <? v) then None
  else Some (mk_api (v_default a) (v_min a) (v_max a) v).
(** specifics.py:138-141 *)
Definition get_api_version (a : api) : Z := if v_actual a =? 0 then v_default a else v_actual a.

(** SetConnections.py:426-494, run by the client, for a remote side which knows about API versions: both sides
    after an agreement, [None] if there's none *)
Definition agree (loc rem : api) : option (api * api) :=
  if Z.min (v_max rem) (v_max loc) <? Z.max (v_min rem) (v_min loc) then None
  else if negb (v_actual loc =? 0) then
    if (v_min rem <=? v_actual loc) && (v_actual loc <=? v_max rem) then
      match set_api_version (v_actual loc) rem with Some r => Some (loc, r) | None => None end
    else None
  else
    let v := Z.max (v_min rem) (Z.min (v_max rem) (v_default loc)) in
    match set_api_version v rem with
    | Some r => Some (mk_api (v_default loc) (v_min loc) (v_max loc) v, r)
    | None => None
    end.
(** one remote side after the other *)
Fixpoint agree_all (loc : api) (rems : list api) : option (api * list api) :=
  match rems with
  | [] => Some (loc, [])
  | r :: rems' =>
      match agree loc r with
      | None => None
      | Some (loc', r') => match agree_all loc' rems' with None => None | Some (l, rs) => Some (l, r' :: rs) end
      end
  end.
