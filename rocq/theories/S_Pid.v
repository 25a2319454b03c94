(** * Specification: the PID in a marker, and schedules *)
From Coq Require Import List NArith ZArith Bool Ascii.
From Verif Require Import Base M_Pid.
Import List ListNotations.

Definition space_char (c : ascii) : Prop :=
  In (ord c) [9; 10; 11; 12; 13; 28; 29; 30; 31; 32]%N.

(** at position [k] of [s], which is the beginning of a line, "PID" is written in any
    case, then spaces or none, then the decimal number [n] *)
Definition pid_at (s : bytes) (k : nat) (n : N) : Prop :=
  exists pre a b c ws ds post,
    s = pre ++ [a; b; c] ++ ws ++ ds ++ post /\ length pre = k /\
    (pre = [] \/ exists pre', pre = pre' ++ [nl]) /\
    In a (bs "Pp") /\ In b (bs "Ii") /\ In c (bs "Dd") /\
    Forall space_char ws /\
    ds <> [] /\ Forall (fun d => is_digit d = true) ds /\ dval ds = n /\
    match post with d :: _ => is_digit d = false | [] => True end.

(** nobody starts between the check of another session and the writing of its marker,
    and all sessions run as the user [u], none with --force *)
Definition marked (e : N * phase) : Prop := exists t, snd e = PhMarked t.
Fixpoint orderly (locks : bool) (u : N) (w : world) (l : list ev) : Prop :=
  match l with
  | [] => True
  | e :: r =>
      match e with
      | EvCheck _ v force => v = u /\ force = false /\ Forall marked (w_sess w)
      | _ => True
      end /\ orderly locks u (step locks w e) r
  end.

(** the process [p] runs and a process of the user [me] may send it a signal *)
Definition visible (pt : proctab) (me p : N) : Prop :=
  exists v, owner_of pt p = Some v /\ (me = 0%N \/ me = v).

(** no session has --force *)
Definition unforced (e : ev) : Prop := match e with EvCheck _ _ f => f = false | _ => True end.
