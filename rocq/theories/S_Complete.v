(** * Specification: what may be offered to complete a command line. *)
From Coq Require Import List ZArith Bool Ascii.
From Verif Require Import Base M_Complete.
Import List ListNotations.

(** The parser in charge after the words before the cursor (each name of an action
    leads to the parser of this action), and the words given to it so far. *)
Fixpoint charge (p : parser) (given : list bytes) (before : list bytes) : parser * list bytes :=
  match before with
  | [] => (p, given)
  | w :: r => match get w (p_subs p) with
              | Some q => charge q [] r
              | None => charge p (given ++ [w]) r
              end
  end.

(** An action isn't an action of itself. *)
Inductive well_named : parser -> Prop :=
| wn : forall opts subs locs,
    (forall n q, In (n, q) subs -> well_named q /\ get n (p_subs q) = None) ->
    well_named (Parser opts subs locs).

Definition option_of (p : parser) (x : bytes) : Prop := In x (map fst (p_opts p)).
Definition action_of (p : parser) (x : bytes) : Prop := In x (map fst (p_subs p)).
(** the word [w] is an option of [p] which takes a parameter *)
Definition takes_parameter (p : parser) (w : bytes) : Prop :=
  exists a t, get w (p_opts p) = Some a /\ a_type a = Some t /\ t <> TBool.
(** what is offered for the parameter of the option [w] *)
Definition offered_value (p : parser) (w x : bytes) : Prop :=
  exists a, get w (p_opts p) = Some a /\ (In x (a_choices a) \/ x = bs "::file::").

(** the order of the options: by their bytes but the dashes *)
Definition dashless (x : bytes) : bytes := filter (fun c => negb (Ascii.eqb c "-"%char)) x.
Inductive bytes_le : bytes -> bytes -> Prop :=
| ble_nil : forall b, bytes_le [] b
| ble_lt : forall x y a b, (ord x < ord y)%N -> bytes_le (x :: a) (y :: b)
| ble_eq : forall x a b, bytes_le a b -> bytes_le (x :: a) (x :: b).

(** whether a file may be named when [after] words are left, the one at the cursor included *)
Definition room_for_file (n : nargs) (after : nat) : Prop :=
  match n with
  | NStar | NPlus => True
  | NOpt => (after <= 1)%nat
  | NNum k => (after <= k)%nat
  end.
