(** What the manual says about owners (docs/rdiff-backup.1.adoc, "USERS AND GROUPS"), in its own terms. *)
From Coq Require Import List ZArith Bool Ascii Lia.
From Verif Require Import Base.
Import List ListNotations.
Local Open Scope Z_scope.

(** a user database in which every name and every id occurs once *)
Definition one_to_one (pw : list (bytes * Z)) : Prop := NoDup (map fst pw) /\ NoDup (map snd pw).
Definition is_user (pw : list (bytes * Z)) (n : bytes) (u : Z) : Prop := In (n, u) pw.
Definition no_user (pw : list (bytes * Z)) (n : bytes) : Prop := forall u, ~ In (n, u) pw.

(** what stands on either side of the colon of a mapping file *)
Inductive who := ById (z : Z) | ByName (n : bytes).
Definition show (w : who) : bytes :=
  match w with
  | ById z => dec_Z z
  | ByName n => n
  end.

Definition blank (c : ascii) : Prop := In (ord c) [9; 11; 12; 13; 28; 29; 30; 31; 32]%N.
(** a name: neither blanks, line ends nor colons, and something which can't be part of a number *)
Definition name_like (w : who) : Prop :=
  match w with
  | ById _ => True
  | ByName n =>
      (forall c, In c n -> ~ blank c /\ c <> chr 10 /\ c <> chr 58) /\
      exists c, In c n /\ ~ (48 <= ord c <= 57)%N /\ c <> chr 43 /\ c <> chr 45 /\ c <> chr 95
  end.

(** one line: nothing, or "old:new"; blanks around it don't matter *)
Inductive line_says : bytes -> list (who * who) -> Prop :=
| L_blank w : Forall blank w -> line_says w []
| L_entry w1 old new w2 : Forall blank w1 -> Forall blank w2 -> name_like old -> name_like new ->
    line_says (w1 ++ show old ++ bs ":" ++ show new ++ w2) [(old, new)].

Inductive file_says : list bytes -> list (who * who) -> Prop :=
| F_nil : file_says [] []
| F_cons l e ls es : line_says l e -> file_says ls es -> file_says (l :: ls) (e ++ es).

(** the entry which counts for somebody: the last one *)
Definition listed (es : list (who * who)) (w d : who) : Prop :=
  exists es1 es2, es = es1 ++ (w, d) :: es2 /\ forall d', ~ In (w, d') es2.
Definition unlisted (es : list (who * who)) (w : who) : Prop := forall d, ~ In (w, d) es.

(** the id somebody named in the mapping file has on this machine *)
Inductive here (pw : list (bytes * Z)) : who -> option Z -> Prop :=
| H_id z : here pw (ById z) (Some z)
| H_user n u : is_user pw n u -> here pw (ByName n) (Some u)
| H_unknown n : no_user pw n -> here pw (ByName n) None.

(** the name a file's owner has: an empty name is none *)
Definition nameless (name : option bytes) : Prop := name = None \/ name = Some [].

(** The default: the name decides if it exists here. *)
Inductive by_default (pw : list (bytes * Z)) (id : Z) : option bytes -> option Z -> Prop :=
| D_nameless name : nameless name -> by_default pw id name (Some id)
| D_known n u : n <> [] -> is_user pw n u -> by_default pw id (Some n) (Some u)
| D_unknown n : n <> [] -> no_user pw n -> by_default pw id (Some n) None.

(** With a mapping file: the entry for the name; else the same name here; else the entry for the id. *)
Inductive by_file (pw : list (bytes * Z)) (es : list (who * who)) (id : Z) : option bytes -> option Z -> Prop :=
| B_name n d r : n <> [] -> listed es (ByName n) d -> here pw d r -> by_file pw es id (Some n) r
| B_same n u : n <> [] -> unlisted es (ByName n) -> is_user pw n u -> by_file pw es id (Some n) (Some u)
| B_id name d r :
    (nameless name \/ exists n, name = Some n /\ n <> [] /\ unlisted es (ByName n) /\ no_user pw n) ->
    listed es (ById id) d -> here pw d r -> by_file pw es id name r
| B_none name :
    (nameless name \/ exists n, name = Some n /\ n <> [] /\ unlisted es (ByName n) /\ no_user pw n) ->
    unlisted es (ById id) -> by_file pw es id name None.

(** the owner of a file can't be left out: the id stays if nothing was found *)
Definition or_same (id : Z) (r : option Z) : Z := match r with Some z => z | None => id end.
