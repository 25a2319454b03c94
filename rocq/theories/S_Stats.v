(** * What session statistics mean (specification for C36)
    in terms of the pairs listed during a backup and of what was reported about them
    (S_CCPP) *)
From Coq Require Import List ZArith Bool Ascii.
From Verif Require Import Base M_Iter L_Iter P_Iter M_CCPP S_CCPP M_Stats.
Import List ListNotations.
Local Open Scope Z_scope.

Definition sum_over {T} (f : T -> Z) (l : list T) : Z := fold_right (fun x s => f x + s) 0 l.
Definition count {T} (f : T -> bool) (l : list T) : Z := sum_over (fun x => if f x then 1 else 0) l.

(** the mirror was updated *)
Definition done (ops : list op) (p : cpair) : bool :=
  match outcome_of (pidx p) ops Untouched with Untouched => false | _ => true end.
(** unchanged or updated: what failed isn't counted *)
Definition counted (ops : list op) (p : cpair) : bool := negb (reported_changed (pidx p) ops) || done ops p.
Definition given (o : option crorp) : bool := match o with Some _ => true | None => false end.
Definition exists_there (o : option crorp) : bool := match o with Some r => q_there r | None => false end.
(** bytes of a regular file *)
Definition bytes_of (o : option crorp) : Z := match o with Some r => if q_reg r then q_size r else 0 | None => 0 end.
Definition is_new ops (p : cpair) := done ops p && exists_there (fst p) && negb (exists_there (snd p)).
Definition is_deleted ops (p : cpair) := done ops p && exists_there (snd p) && negb (exists_there (fst p)).
Definition is_changed ops (p : cpair) := done ops p && exists_there (fst p) && exists_there (snd p).

(** the parts of an interleaving *)
Fixpoint cache_events (l : list sevent) : list event :=
  match l with [] => [] | FromCache e :: r => e :: cache_events r | _ :: r => cache_events r end.
Fixpoint increments (l : list sevent) : list crorp :=
  match l with [] => [] | Increment e :: r => e :: increments r | _ :: r => increments r end.
Fixpoint errors (l : list sevent) : Z :=
  match l with [] => 0 | Error :: r => 1 + errors r | _ :: r => errors r end.

(** numbers which doubles represent exactly *)
Definition exact (z : Z) : Prop := - 2 ^ 53 <= z <= 2 ^ 53.

(** the value of an attribute in a statistics file: elapsed time and change of size are computed *)
Definition shown (o : attrs) (a : bytes) : option num :=
  if beq_bytes a (bs "ElapsedTime") then elapsed o
  else if beq_bytes a (bs "TotalDestinationSizeChange") then total_change o
  else o a.
Definition representable (a : bytes) (v : num) : Prop :=
  match v with Whole z => exact z | Cents c => Z.rem c 100 <> 0 /\ a <> bs "Errors" end.
