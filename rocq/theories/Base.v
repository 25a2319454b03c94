(* Base.v -- bytes, decimal numbers and a few Python built-ins used by all
   model files.  No part of /repo is modelled here except the Python built-ins
   named in the comments. *)
From Coq Require Export List Bool Arith NArith ZArith Ascii String Lia.
Export ListNotations.
Open Scope list_scope.

(* Python `bytes` (and `str` where only ASCII text is handled). *)
Definition bytes := list ascii.

(* byte-string literals b"..." *)
Definition bs (s : string) : bytes := list_ascii_of_string s.

Definition chr (n : N) : ascii := ascii_of_N n.
Definition ord (c : ascii) : N := N_of_ascii c.

Definition nl : ascii := chr 10.       (* \n *)
Definition bslash : ascii := chr 92.   (* \\ *)

(* bytes equality, decidable *)
Definition beq_bytes (x y : bytes) : bool :=
  if list_eq_dec ascii_dec x y then true else false.

(* membership of a byte in a byte string: `c in s` *)
Fixpoint mem_byte (c : ascii) (s : bytes) : bool :=
  match s with
  | [] => false
  | x :: r => Ascii.eqb c x || mem_byte c r
  end.

(* bytes.startswith *)
Fixpoint starts_with (p s : bytes) : bool :=
  match p, s with
  | [], _ => true
  | _ :: _, [] => false
  | a :: p', b :: s' => Ascii.eqb a b && starts_with p' s'
  end.

Definition is_digit (c : ascii) : bool :=
  (48 <=? ord c)%N && (ord c <=? 57)%N.

(* value of a decimal digit byte *)
Definition digit_val (c : ascii) : N := (ord c - 48)%N.
Definition digit_chr (d : N) : ascii := chr (48 + d).

(* int(s) for a string known to consist only of digits *)
Definition dval (s : bytes) : N :=
  fold_left (fun acc c => (acc * 10 + digit_val c)%N) s 0%N.

(* decimal printing, "%d" % n for n >= 0; the fuel is the number of bits, which
   is always enough *)
Fixpoint dec_fuel (fuel : nat) (n : N) (acc : bytes) : bytes :=
  match fuel with
  | O => acc
  | S f =>
      let acc' := digit_chr (n mod 10) :: acc in
      if (n <? 10)%N then acc' else dec_fuel f (n / 10)%N acc'
  end.
Definition dec (n : N) : bytes := dec_fuel (S (N.size_nat n)) n [].

(* "%0wd" % n for n >= 0 *)
Definition pad0 (w : nat) (s : bytes) : bytes :=
  repeat (chr 48) (w - List.length s) ++ s.
Definition dec_pad (w : nat) (n : N) : bytes := pad0 w (dec n).

(* "%d" % z *)
Definition dec_Z (z : Z) : bytes :=
  if (z <? 0)%Z then chr 45 :: dec (Z.to_N (- z)) else dec (Z.to_N z).

(* int(s) restricted to the inputs the program can produce or match by its
   regular expressions: an optional sign followed by at least one digit.
   (Python's int() also accepts surrounding blanks and underscores.) *)
Definition parse_N (s : bytes) : option N :=
  match s with
  | [] => None
  | _ => if forallb is_digit s then Some (dval s) else None
  end.
Definition parse_Z (s : bytes) : option Z :=
  match s with
  | c :: r =>
      if Ascii.eqb c (chr 45) then option_map (fun n => (- Z.of_N n)%Z) (parse_N r)
      else if Ascii.eqb c (chr 43) then option_map Z.of_N (parse_N r)
      else option_map Z.of_N (parse_N s)
  | [] => None
  end.

(* s.split(sep) for a single-byte separator: always at least one field *)
Fixpoint split_on (sep : ascii) (s : bytes) : list bytes :=
  match s with
  | [] => [[]]
  | c :: r =>
      if Ascii.eqb c sep then [] :: split_on sep r
      else match split_on sep r with
           | [] => [[c]]
           | f :: fs => (c :: f) :: fs
           end
  end.

(* sep.join(l) *)
Fixpoint join_with (sep : bytes) (l : list bytes) : bytes :=
  match l with
  | [] => []
  | [x] => x
  | x :: r => x ++ sep ++ join_with sep r
  end.

(* split at the first occurrence of a byte: (before, Some after) *)
Fixpoint break_on (sep : ascii) (s : bytes) : bytes * option bytes :=
  match s with
  | [] => ([], None)
  | c :: r =>
      if Ascii.eqb c sep then ([], Some r)
      else let '(a, b) := break_on sep r in (c :: a, b)
  end.

(* a result which may be a Python exception, identified by a name *)
Inductive result (A : Type) : Type :=
| Ok (a : A)
| Exc (e : string).
Arguments Ok {A} _.
Arguments Exc {A} _.
