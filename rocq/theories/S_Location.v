(** * What a location means *)
From Coq Require Import List ZArith Bool Ascii.
From Verif Require Import Base M_Location.
Import List ListNotations.
Local Open Scope Z_scope.

(** The manual: a double colon separates host and path; a backslash before a colon, or another backslash, makes it an
    ordinary character; elsewhere a backslash is itself.  What is between the separators, as it's written and what it means: *)
Fixpoint between (raw cur : bytes) (s : bytes) : list (bytes * bytes) :=
  match s with
  | [] => [(raw, cur)]
  | c :: s1 =>
      match s1 with
      | [] => [(raw ++ [c], cur ++ [c])]
      | d :: s2 =>
          if Ascii.eqb c bslash && (Ascii.eqb d bslash || Ascii.eqb d colon) then between (raw ++ [c; d]) (cur ++ [d]) s2
          else if Ascii.eqb c colon && Ascii.eqb d colon then (raw, cur) :: between [] [] s2
          else between (raw ++ [c]) (cur ++ [c]) s1
      end
  end.
(** Windows: backslashes in paths are slashes; a path which is written with two backslashes and something
    else at the beginning is on the network, and keeps both *)
Definition slashes (p : bytes) : bytes := map (fun c => if Ascii.eqb c bslash then slash else c) p.
Definition network (raw : bytes) : bool :=
  starts_with [bslash; bslash] raw && (2 <? length raw)%nat && negb (starts_with [bslash; bslash; bslash] raw).
Definition path_of (p : bytes * bytes) : bytes :=
  if network (fst p) then slash :: slashes (snd p) else slashes (snd p).

Definition meaning (pieces : list (bytes * bytes)) : location :=
  match pieces with
  | [p] => Local (path_of p)
  | [h; p] =>
      match snd h, snd p with
      | [], _ => NoHost
      | _, [] => NoPath
      | _, _ => Remote (snd h) (path_of p)
      end
  | _ => TooMany
  end.

(** the cases in which parse_location goes wrong: an even number of backslashes, four or more, before a separator; nothing
    but backslashes as the last part; a part which begins with backslashes and a newline *)
Definition begins_part (a : bytes) : Prop := a = [] \/ exists a', a = a' ++ [colon; colon].
Definition tidy (s : bytes) : Prop :=
  (forall a b n, (forall a', a <> a' ++ [bslash]) -> s <> a ++ repeat bslash (4 + 2 * n) ++ [colon; colon] ++ b)
  /\ (forall a n, begins_part a -> s <> a ++ repeat bslash (S n))
  /\ (forall a b n, begins_part a -> s <> a ++ repeat bslash (S n) ++ [nl] ++ b).

(** quoting as the manual tells *)
Definition quote (s : bytes) : bytes :=
  flat_map (fun c => if Ascii.eqb c bslash || Ascii.eqb c colon then [bslash; c] else [c]) s.

(** A remote schema is text and placeholders; in text braces are doubled *)
Inductive schema_part : Type := Text (s : bytes) | Host | Version (c : ascii).
Definition braces_doubled (s : bytes) : bytes :=
  flat_map (fun c => if Ascii.eqb c obrace || Ascii.eqb c cbrace then [c; c] else [c]) s.
Definition written (p : schema_part) : bytes :=
  match p with
  | Text s => braces_doubled s
  | Host => bs "{h}"
  | Version c => bs "{V" ++ [c] ++ bs "}"
  end.
Definition stands_for (host Vx Vy Vz : bytes) (p : schema_part) : bytes :=
  match p with
  | Text s => s
  | Host => host
  | Version c => if Ascii.eqb c (chr 120) then Vx else if Ascii.eqb c (chr 121) then Vy else Vz
  end.
(** what can be written: the version's parts are x, y, z; no text looks like a placeholder or ends with an opening brace *)
Definition good_part (p : schema_part) : Prop :=
  match p with
  | Text s => (forall f a b, In f known_fields -> s <> a ++ [obrace] ++ f ++ [cbrace] ++ b)
              /\ (forall a, s <> a ++ [obrace])
  | Host => True
  | Version c => In c [chr 120; chr 121; chr 122]
  end.
(** two texts in a row are one *)
Fixpoint no_texts_in_a_row (l : list schema_part) : Prop :=
  match l with
  | Text _ :: ((Text _ :: _) as l') => False
  | _ :: l' => no_texts_in_a_row l'
  | [] => True
  end.
