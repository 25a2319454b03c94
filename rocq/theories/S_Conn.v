(** * Specification for C23 *)
From Coq Require Import List NArith.
From Verif Require Import Base M_Conn.
Import List ListNotations.

Section Calls.
Context {V : Type}.
Notation prog := (@prog V).
Notation frame := (@frame V).
Notation side := (@side V).
Notation conf := (@conf V).

(** numbers waited for *)
Fixpoint waits (st : list frame) : list N :=
  match st with
  | [] => []
  | FWait n _ :: st' => n :: waits st'
  | FAnswer _ :: st' => waits st'
  end.

(** the value of a computation if calls were local *)
Fixpoint value (p : prog) : V :=
  match p with
  | Ret v => v
  | Call f args k => value (k (value (f args)))
  end.
(** at most [n] calls are nested *)
Fixpoint nesting (n : nat) (p : prog) : Prop :=
  match p with
  | Ret _ => True
  | Call f args k =>
      match n with
      | O => False
      | S n' => nesting n' (f args) /\ nesting n (k (value (f args)))
      end
  end.

(** whatever happens, [P] holds all the time until [Q] holds *)
Inductive inevitable (P Q : conf -> Prop) : conf -> Prop :=
| I_now c : P c -> Q c -> inevitable P Q c
| I_step c : P c -> (exists c', step c c') -> (forall c', step c c' -> inevitable P Q c') -> inevitable P Q c.

Definition alive (s : side) : Prop := match s_act s with Dead _ => False | _ => True end.
(** no side has failed, and the numbers waited for on both sides are all different *)
Definition sound (c : conf) : Prop :=
  alive (c_a c) /\ alive (c_b c) /\ NoDup (waits (s_stk (c_a c)) ++ waits (s_stk (c_b c))).
End Calls.
