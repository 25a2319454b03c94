(** * Specification: a server fit for a backup. *)
From Coq Require Import List Bool Ascii NArith.
From Verif Require Import Base M_TestAction.
Import List ListNotations.

(** it is reached, gives back the value it was sent, and the path is a directory there *)
Definition reached (l : location) : Prop := exists s, l = LRemote s /\ s_connects s = true.
Definition fit (l : location) : Prop :=
  exists s, l = LRemote s /\ s_connects s = true /\ s_echo s = Some (bs "xyz123") /\ s_data s = AType (Some (bs "dir")).
Definition remote (l : location) : Prop := exists s, l = LRemote s.
