(** * The meaning of globbing patterns, with brackets, backslashes and "ignorecase:" *)
From Coq Require Import List ZArith Bool Ascii.
From Verif Require Import Base M_Iter M_Select.
Import List ListNotations.
Local Open Scope Z_scope.

(** ** how a pattern is read *)
Inductive piece : Type :=
| PChar (c : ascii)              (* this character *)
| POne                           (* ?: one character other than a slash *)
| PMany                          (* *: characters other than a slash *)
| PAny                           (* **: any characters *)
| PSet (neg : bool) (body : bytes). (* [body] or [!body] *)

(** [r], the text after an opening bracket, consists of the inside of the brackets, the closing one and [g]: "]" in first
    place doesn't close; "!" or "^" in first place negates *)
Definition set_at (r : bytes) (neg : bool) (body g : bytes) : Prop :=
  body <> [] /\ ~ In c_close (tl body) /\
  ((neg = true /\ exists m, is_neg m = true /\ r = m :: body ++ c_close :: g) \/
   (neg = false /\ is_neg (hd c_close body) = false /\ r = body ++ c_close :: g)).

Inductive reads : bytes -> list piece -> Prop :=
| R_end : reads [] []
| R_char : forall c g ps, is_special c = false -> reads g ps -> reads (c :: g) (PChar c :: ps)
| R_escape : forall d g ps, reads g ps -> reads (c_bs :: d :: g) (PChar d :: ps)
| R_escape_end : reads [c_bs] [PChar c_bs]
| R_one : forall g ps, reads g ps -> reads (c_quest :: g) (POne :: ps)
| R_many : forall g ps, (forall g', g <> c_star :: g') -> reads g ps -> reads (c_star :: g) (PMany :: ps)
| R_any : forall g ps, reads g ps -> reads (c_star :: c_star :: g) (PAny :: ps)
| R_set : forall r neg body g ps, set_at r neg body g -> reads g ps -> reads (c_open :: r) (PSet neg body :: ps)
| R_bracket : forall r ps, (forall neg body g, ~ set_at r neg body g) -> reads r ps -> reads (c_open :: r) (PChar c_open :: ps).

(** ** what it matches *)
(** ASCII letters differing in case are the same if case is ignored *)
Definition same_letter (ic : bool) (a b : ascii) : Prop :=
  a = b \/ (ic = true /\
    ((65 <= Z.of_N (ord a) <= 90 /\ Z.of_N (ord b) = Z.of_N (ord a) + 32) \/
     (65 <= Z.of_N (ord b) <= 90 /\ Z.of_N (ord a) = Z.of_N (ord b) + 32))).
(** the characters in a set: single ones and ranges *)
Inductive in_set : bytes -> ascii -> Prop :=
| I_range : forall a b r x, (ord a <= ord x)%N -> (ord x <= ord b)%N -> in_set (a :: c_minus :: b :: r) x
| I_after_range : forall a b r x, in_set r x -> in_set (a :: c_minus :: b :: r) x
| I_single : forall a r, (forall b r', r <> c_minus :: b :: r') -> in_set (a :: r) a
| I_after : forall a r x, (forall b r', r <> c_minus :: b :: r') -> in_set r x -> in_set (a :: r) x.
(** its ranges are in order *)
Inductive set_ok : bytes -> Prop :=
| O_end : set_ok []
| O_range : forall a b r, (ord a <= ord b)%N -> set_ok r -> set_ok (a :: c_minus :: b :: r)
| O_single : forall a r, (forall b r', r <> c_minus :: b :: r') -> set_ok r -> set_ok (a :: r).

Inductive matches (ic : bool) : list piece -> bytes -> Prop :=
| X_end : matches ic [] []
| X_char : forall c x ps p, same_letter ic c x -> matches ic ps p -> matches ic (PChar c :: ps) (x :: p)
| X_one : forall x ps p, x <> slash -> matches ic ps p -> matches ic (POne :: ps) (x :: p)
| X_many : forall s ps p, ~ In slash s -> matches ic ps p -> matches ic (PMany :: ps) (s ++ p)
| X_any : forall s ps p, matches ic ps p -> matches ic (PAny :: ps) (s ++ p)
| X_set : forall body x ps p, (exists y, same_letter ic y x /\ in_set body y) -> matches ic ps p -> matches ic (PSet false body :: ps) (x :: p)
| X_not_set : forall body x ps p, ~ (exists y, same_letter ic y x /\ in_set body y) -> matches ic ps p -> matches ic (PSet true body :: ps) (x :: p).

(** the pattern an option argument consists of, and whether case is ignored in it *)
Definition pattern_of (arg : bytes) : bool * bytes :=
  if has_ignorecase arg then (true, skipn 11 arg) else (false, arg).
